(** Cosmologies for astropy: C81 and C82. *)
From Coq Require Import String Ascii List Arith ZArith QArith Reals Qreals Bool Lia Lqa Lra.
From Verif Require Import Base BaseLemmas NamesModel MetaModel MetaSpec MetaProofs MetaGroupProofs MetaTheorems ConvModel ConvSpec.
Import ListNotations.

(** * Numbers *)

Lemma truncate_cut : forall x, cut x (truncate x).
Proof.
  intros [n d]. unfold cut, truncate, inject_Z, Qle, Qlt. cbn [Qnum Qden]. pose proof (Z.quot_rem' n (Z.pos d)) as E.
  assert (P : (0 < Z.pos d)%Z) by lia.
  assert (B : (0 <= n -> 0 <= Z.rem n (Z.pos d) < Z.pos d)%Z) by (intro; apply Z.rem_bound_pos; lia).
  assert (B' : (n <= 0 -> - Z.pos d < Z.rem n (Z.pos d) <= 0)%Z).
  { intro N. pose proof (Z.rem_bound_pos (- n) (Z.pos d) ltac:(lia) P) as K. rewrite Z.rem_opp_l in K by lia. lia. }
  set (q := Z.quot n (Z.pos d)) in *. set (r := Z.rem n (Z.pos d)) in *. clearbody q r. set (dd := Z.pos d) in *. clearbody dd.
  split; intro H; [assert (K : (0 <= n)%Z) by lia; specialize (B K)|assert (K : (n <= 0)%Z) by lia; specialize (B' K)]; split; nia.
Qed.

Lemma cut_unique : forall x z z', cut x z -> cut x z' -> z = z'.
Proof.
  intros x z z' (A & B) (A' & B'). destruct (Qlt_le_dec x 0) as [H|H].
  - apply Qlt_le_weak in H. specialize (B H). specialize (B' H). destruct B as (B1 & B2). destruct B' as (B3 & B4).
    assert (E1 : (inject_Z (z - 1) < inject_Z z')%Q) by (eapply Qlt_le_trans; eassumption).
    assert (E2 : (inject_Z (z' - 1) < inject_Z z)%Q) by (eapply Qlt_le_trans; eassumption).
    rewrite <- Zlt_Qlt in E1, E2. lia.
  - specialize (A H). specialize (A' H). destruct A as (A1 & A2). destruct A' as (A3 & A4).
    assert (E1 : (inject_Z z < inject_Z (z' + 1))%Q) by (eapply Qle_lt_trans; eassumption).
    assert (E2 : (inject_Z z' < inject_Z (z + 1))%Q) by (eapply Qle_lt_trans; eassumption).
    rewrite <- Zlt_Qlt in E1, E2. lia.
Qed.

Lemma cut_iff : forall x z, cut x z <-> int_of x = z.
Proof.
  intros x z. split; [intro C; apply (cut_unique x _ _ (truncate_cut x) C)|]. intros <-. apply truncate_cut.
Qed.

Lemma integral_cut : forall x z, integral x z -> int_of x = z.
Proof.
  intros x z E. apply cut_iff. unfold integral in E. unfold cut. rewrite E. rewrite <- !Zle_Qle, <- !Zlt_Qlt.
  split; intros _; lia.
Qed.

Lemma is_int_iff : forall x, is_int x = true <-> exists z, integral x z.
Proof.
  intro x. unfold is_int. rewrite Qeq_bool_iff. split.
  - intro E. exists (int_of x). exact E.
  - intros (z & E). rewrite (integral_cut x z E). exact E.
Qed.

Lemma all_int : forall l, forallb is_int l = true <-> exists zs, Forall2 integral l zs.
Proof.
  induction l as [|x l IH].
  - split; [exists []; constructor|reflexivity].
  - cbn [forallb]. rewrite andb_true_iff, is_int_iff, IH. split.
    + intros ((z & E) & (zs & F)). exists (z :: zs). constructor; assumption.
    + intros (zs & F). inversion F; subst. eauto.
Qed.

Lemma integral_list : forall l zs, Forall2 integral l zs -> map int_of l = zs.
Proof.
  intros l zs F. induction F as [|x z l zs E F IH]; [reflexivity|]. cbn. rewrite (integral_cut x z E), IH. reflexivity.
Qed.

Lemma replicated_iff : forall ms ds zs r, Forall2 integral ds zs ->
  (replicated ms zs r <-> flat_map (fun md => repeat (fst md) (Z.to_nat (int_of (snd md)))) (combine ms ds) = r).
Proof.
  intros ms ds zs r F. revert ms r. induction F as [|d z ds zs E F IH]; intros ms r.
  - split.
    + intro H. destruct ms; inversion H; reflexivity.
    + intros <-. destruct ms; constructor.
  - destruct ms as [|m ms]; cbn [combine flat_map fst snd].
    + split; [intro H; inversion H; reflexivity|intros <-; constructor].
    + rewrite (integral_cut d z E). split.
      * intro H. inversion H as [| |? ? ? ? r' H']; subst. apply IH in H'. congruence.
      * intros <-. constructor. apply IH. reflexivity.
Qed.

Lemma neutrinos_iff : forall n_eff n_ur ms ds r,
  neutrinos n_eff n_ur ms ds = Ok r <->
  exists zs x ur n rep, Forall2 integral ds zs /\ n_ur = [x] /\ cut x ur /\ cut n_eff n /\ n = (sum_of zs + ur)%Z
    /\ replicated ms zs rep /\ r = rep ++ repeat 0%Q (Z.to_nat ur).
Proof.
  intros n_eff n_ur ms ds r. unfold neutrinos. split.
  - intro H. destruct (forallb is_int ds) eqn:A; [|discriminate]. cbn [negb] in H. apply all_int in A. destruct A as (zs & F).
    destruct n_ur as [|x [|y l]]; try discriminate. cbn [single_int bind] in H.
    destruct (Z.eqb_spec (int_of n_eff) (fold_right Z.add 0 (map int_of ds) + int_of x)%Z) as [E|]; [|discriminate].
    cbn [negb] in H. injection H as <-. exists zs, x, (int_of x), (int_of n_eff). eexists.
    split; [exact F|]. split; [reflexivity|]. split; [apply truncate_cut|]. split; [apply truncate_cut|].
    split; [rewrite E, (integral_list ds zs F); reflexivity|].
    split; [apply (replicated_iff ms ds zs _ F); reflexivity|]. reflexivity.
  - intros (zs & x & ur & n & rep & F & -> & C1 & C2 & E & R & ->).
    assert (A : forallb is_int ds = true) by (apply all_int; eauto). rewrite A. cbn [negb single_int bind].
    apply cut_iff in C1, C2. rewrite C1, C2, (integral_list ds zs F).
    fold (sum_of zs). rewrite <- E, Z.eqb_refl. cbn [negb].
    apply (replicated_iff ms ds zs _ F) in R. rewrite R. reflexivity.
Qed.

(** * Fields *)

Lemma first_iff : forall d key x, first_number d key = Ok x <-> gives d key x.
Proof.
  intros d key x. unfold first_number, gives, has. destruct (dict_get d (txt key)) as [v|].
  - destruct (item_at v 0) as [w|] eqn:E.
    + apply item_iff in E. split.
      * intro H. destruct w; try discriminate. injection H as ->. eauto.
      * intros (v' & H & I). injection H as <-. apply item_iff in E, I. assert (w = VNum x) by congruence. subst. reflexivity.
    + split; [discriminate|]. intros (v' & H & I). injection H as <-. apply item_iff in I. congruence.
  - split; [discriminate|]. intros (v & H & _). discriminate.
Qed.

Lemma first_or_iff : forall d key x y,
  first_or d key (Ok x) = Ok y <-> gives d key y \/ nothing_at d key /\ y = x.
Proof.
  intros d key x y. rewrite <- first_iff. unfold first_or, nothing_at, has, missing, first_number.
  destruct (dict_get d (txt key)) as [v|].
  - destruct (item_at v 0) as [w|] eqn:E.
    + assert (N : ~ (Some v = None \/ (exists v0, Some v = Some v0 /\ (forall w0, ~ item_of v0 0 w0)))).
      { intros [H|(v' & H & K)]; [discriminate|]. injection H as <-. apply item_iff in E. destruct (K w E). }
      destruct w; (split; [intro H; try discriminate; left; exact H|intros [H|(H & _)]; [exact H|destruct (N H)]]).
    + split.
      * intro H. injection H as <-. right. split; [|reflexivity]. right. exists v. split; [reflexivity|].
        intros w I. apply item_iff in I. congruence.
      * intros [H|(_ & ->)]; [discriminate|reflexivity].
  - split.
    + intro H. injection H as <-. right. auto.
    + intros [H|(_ & ->)]; [discriminate|reflexivity].
Qed.

Lemma items_iff : forall d key x l, items_or d key x = Ok l <-> numbers_of d key x l.
Proof.
  intros d key x l. unfold items_or. split.
  - intro H. destruct (dict_get d (txt key)) as [[]|] eqn:E; try discriminate; injection H as <-.
    + apply numbers_array. exact E.
    + apply numbers_one. exact E.
    + apply numbers_missing. exact E.
  - intro H. destruct H as [H|l' H|y H]; unfold missing, has in H; rewrite H; reflexivity.
Qed.

Lemma bind_ok : forall A B (x : res A) (f : A -> res B) b, bind x f = Ok b <-> exists a, x = Ok a /\ f a = Ok b.
Proof.
  intros A B x f b. destruct x as [a|e]; cbn [bind]; split.
  - intro H. exists a. auto.
  - intros (a' & E & H). injection E as <-. exact H.
  - discriminate.
  - intros (a & E & _). discriminate.
Qed.

(** * C81: the parameters *)

(** The cosmology is made exactly when the fields are there and the neutrinos fit; each argument is
    the one of its field. *)
Theorem C81_conversion : forall newton stefan light time_unit d c,
  to_astropy newton stefan light time_unit d = Ok c <->
  exists omega_r,
    gives d "H0 [internal units]" (ac_H0 c) /\ gives d "Omega_b" (ac_Ob0 c) /\ gives d "Omega_lambda" (ac_Ode0 c)
    /\ gives d "Omega_r" omega_r /\ gives d "Omega_m" (ac_Om0 c) /\ gives d "w_0" (ac_w0 c) /\ gives d "w_a" (ac_wa c)
    /\ ((exists t, gives d "T_CMB_0 [K]" t /\ ~ (t == 0)%Q /\ ac_Tcmb0 c = Q2R t)
        \/ (nothing_at d "T_CMB_0 [K]" \/ exists t, gives d "T_CMB_0 [K]" t /\ (t == 0)%Q)
           /\ ac_Tcmb0 c = background_temperature newton stefan light time_unit (ac_H0 c) omega_r)
    /\ (gives d "N_eff" (ac_Neff c) \/ nothing_at d "N_eff" /\ ac_Neff c = 304 # 100)
    /\ exists ms ds zs x ur n rep,
         numbers_of d "M_nu_eV" 0%Q ms /\ numbers_of d "deg_nu" 0%Q ds /\ numbers_of d "N_ur" (304 # 100) [x]
         /\ Forall2 integral ds zs /\ cut x ur /\ cut (ac_Neff c) n /\ n = (sum_of zs + ur)%Z
         /\ replicated ms zs rep /\ ac_m_nu c = rep ++ repeat 0%Q (Z.to_nat ur).
Proof.
  intros newton stefan light time_unit d c. unfold to_astropy. split.
  - intro H. repeat (apply bind_ok in H; destruct H as (? & ? & H)). cbv zeta in H. 
    rename x into h0, x0 into ob, x1 into ol, x2 into omr, x3 into om, x4 into w0, x5 into wa, x6 into t.
    injection H as <-. cbn [ac_H0 ac_Om0 ac_Ode0 ac_w0 ac_wa ac_Tcmb0 ac_Ob0 ac_Neff ac_m_nu].
    repeat match goal with
      | K : first_number _ _ = Ok _ |- _ => apply first_iff in K
      | K : first_or _ _ _ = Ok _ |- _ => apply first_or_iff in K
      | K : items_or _ _ _ = Ok _ |- _ => apply items_iff in K
      | K : neutrinos _ _ _ _ = Ok _ |- _ => apply neutrinos_iff in K end.
    exists omr. do 7 (split; [assumption|]). split; [|split; [assumption|]].
    + match goal with K : gives d "T_CMB_0 [K]" t \/ _ |- _ => destruct K as [TK|(TK & ->)] end.
      * destruct (is_zero t) eqn:Z.
        -- right. split; [|reflexivity]. right. exists t. split; [exact TK|]. apply is_zero_iff. exact Z.
        -- left. exists t. split; [exact TK|]. split; [|reflexivity]. intro F. apply is_zero_iff in F. congruence.
      * right. split; [left; exact TK|reflexivity].
    + match goal with K : exists zs : list Z, _ |- _ => destruct K as (zs & x & ur & n & rep & F & E & C1 & C2 & S & R & E2) end.
      subst. eexists. eexists. exists zs, x, ur. eexists. exists rep. do 2 (split; [eassumption|]). split; [eassumption|].
      split; [exact F|]. split; [exact C1|]. split; [exact C2|]. split; [reflexivity|]. split; [exact R|reflexivity].
  - intros (omr & G1 & G2 & G3 & G4 & G5 & G6 & G7 & T & N & ms & ds & zs & x & ur & n & rep & M & D & U & F & C1 & C2 & S & R & E).
    destruct c as [h0 om ol w0 wa tc ob neff nu]. cbn [ac_H0 ac_Om0 ac_Ode0 ac_w0 ac_wa ac_Tcmb0 ac_Ob0 ac_Neff ac_m_nu] in *.
    apply first_iff in G1, G2, G3, G4, G5, G6, G7. apply items_iff in M, D, U.
    rewrite G1, G2, G3, G4, G5, G6, G7. cbn [bind].
    apply first_or_iff in N. unfold default_neff.
    assert (V : neutrinos neff [x] ms ds = Ok nu).
    { apply neutrinos_iff. exists zs, x, ur, n, rep. repeat (split; [first [assumption|reflexivity]|]). exact E. }
    assert (T' : exists t, first_or d "T_CMB_0 [K]" (Ok zero) = Ok t
      /\ (if is_zero t then background_temperature newton stefan light time_unit h0 omr else Q2R t) = tc).
    { destruct T as [(t & K & Z & ->)|([K|(t & K & Z)] & ->)].
      - exists t. split; [apply first_or_iff; left; exact K|].
        destruct (is_zero t) eqn:Q; [apply is_zero_iff in Q; destruct (Z Q)|reflexivity].
      - exists zero. split; [apply first_or_iff; right; auto|reflexivity].
      - exists t. split; [apply first_or_iff; left; exact K|]. apply is_zero_iff in Z. rewrite Z. reflexivity. }
    destruct T' as (t & -> & <-). cbn [bind]. cbv zeta. rewrite N. cbn [bind]. change zero with 0%Q. rewrite M. cbn [bind]. rewrite D. cbn [bind].
    rewrite U. cbn [bind]. rewrite V. reflexivity.
Qed.

(** Without a temperature the one that is used gives the radiation density of the file. *)
Theorem C81_temperature : forall newton stefan light time_unit h0 omega_r,
  (0 < newton)%R -> (0 < stefan)%R -> (0 < light)%R -> (time_unit <> 0)%R -> ~ (h0 == 0)%Q -> (0 <= omega_r)%Q ->
  photon_density newton stefan light (Q2R h0 / time_unit)
    (background_temperature newton stefan light time_unit h0 omega_r) = Q2R omega_r.
Proof.
  intros g s l u h0 o G S L U H O. unfold photon_density, background_temperature, critical_density, radiation_constant.
  set (k := (Q2R h0 / u)%R).
  assert (K : (k <> 0)%R).
  { unfold k. apply Rmult_integral_contrapositive_currified; [|apply Rinv_neq_0_compat; exact U].
    intro E. apply H. apply eqR_Qeq. rewrite E. unfold Q2R. cbn. lra. }
  assert (K2 : (0 < k ^ 2)%R) by nra.
  assert (O' : (0 <= Q2R o)%R).
  { apply Qle_Rle in O. unfold Q2R at 1 in O. cbn in O. lra. }
  assert (P : (0 < PI)%R) by apply PI_RGT_0.
  assert (C : (0 < 3 / (8 * PI * g) * k ^ 2)%R).
  { apply Rmult_lt_0_compat; [|exact K2]. apply Rdiv_lt_0_compat; [lra|]. apply Rmult_lt_0_compat; [nra|exact G]. }
  assert (A : (0 < 4 * s / l ^ 3)%R).
  { apply Rdiv_lt_0_compat; [lra|]. apply pow_lt. exact L. }
  set (x := (Q2R o * (3 / (8 * PI * g) * k ^ 2) / (4 * s / l ^ 3))%R).
  assert (X : (0 <= x)%R).
  { unfold x, Rdiv at 1. apply Rmult_le_pos; [apply Rmult_le_pos; [exact O'|lra]|]. left. apply Rinv_0_lt_compat. exact A. }
  replace (sqrt (sqrt x) ^ 4)%R with x.
  - unfold x. set (cc := (3 / (8 * PI * g) * k ^ 2)%R) in *. set (aa := (4 * s / l ^ 3)%R) in *. field. split; lra.
  - replace (sqrt (sqrt x) ^ 4)%R with ((sqrt (sqrt x) * sqrt (sqrt x)) * (sqrt (sqrt x) * sqrt (sqrt x)))%R by ring.
    rewrite (sqrt_sqrt (sqrt x)) by apply sqrt_pos. rewrite sqrt_sqrt by exact X. reflexivity.
Qed.

(** The same for the whole conversion; the temperature is not negative. *)
Theorem C81_radiation : forall newton stefan light time_unit d c omega_r,
  (0 < newton)%R -> (0 < stefan)%R -> (0 < light)%R -> (time_unit <> 0)%R ->
  to_astropy newton stefan light time_unit d = Ok c -> ~ (ac_H0 c == 0)%Q -> gives d "Omega_r" omega_r -> (0 <= omega_r)%Q ->
  nothing_at d "T_CMB_0 [K]" \/ (exists t, gives d "T_CMB_0 [K]" t /\ (t == 0)%Q) ->
  (0 <= ac_Tcmb0 c)%R
  /\ photon_density newton stefan light (Q2R (ac_H0 c) / time_unit) (ac_Tcmb0 c) = Q2R omega_r.
Proof.
  intros g s l u d c o G S L U H H0 O P T. apply C81_conversion in H.
  destruct H as (o' & _ & _ & _ & O' & _ & _ & _ & K & _).
  assert (o' = o) by (apply first_iff in O, O'; congruence). subst o'.
  assert (E : ac_Tcmb0 c = background_temperature g s l u (ac_H0 c) o).
  { destruct K as [(t & V & N & _)|(_ & E)]; [exfalso|exact E]. destruct T as [[M|(v & M & W)]|(t' & V' & Z)].
    - destruct V as (v & V & _). unfold has, missing in *. congruence.
    - destruct V as (v' & V & I). unfold has in *. assert (v' = v) by congruence. subst v'. destruct (W _ I).
    - apply first_iff in V, V'. assert (t' = t) by congruence. subst t'. destruct (N Z). }
  rewrite E. split; [apply sqrt_pos|]. apply C81_temperature; assumption.
Qed.

(** * C82: neutrinos *)

Lemma replicated_length : forall ms zs r, replicated ms zs r -> length ms = length zs -> Forall (fun z => 0 <= z)%Z zs ->
  Z.of_nat (length r) = sum_of zs.
Proof.
  intros ms zs r R. induction R as [ds|ms|m ms d ds r R IH]; intros L F.
  - destruct ds; [reflexivity|discriminate].
  - reflexivity.
  - inversion F; subst. rewrite app_length, repeat_length, Nat2Z.inj_add, Z2Nat.id by assumption.
    rewrite IH; [reflexivity| |assumption]. injection L as L. exact L.
Qed.

(** astropy gets one mass for each whole effective neutrino when there are as many masses as
    degeneracies and no number is negative. *)
Theorem C82_count : forall newton stefan light time_unit d c ms ds x,
  to_astropy newton stefan light time_unit d = Ok c ->
  numbers_of d "M_nu_eV" 0%Q ms -> numbers_of d "deg_nu" 0%Q ds -> numbers_of d "N_ur" (304 # 100) [x] ->
  length ms = length ds -> Forall (fun q => 0 <= q)%Q ds -> (0 <= x)%Q ->
  cut (ac_Neff c) (Z.of_nat (length (ac_m_nu c))).
Proof.
  intros newton stefan light time_unit d c ms ds x H M D U L P X. apply C81_conversion in H.
  destruct H as (_ & _ & _ & _ & _ & _ & _ & _ & _ & _ & ms' & ds' & zs & x' & ur & n & rep & M' & D' & U' & F & C1 & C2 & S & R & E).
  apply items_iff in M, D, U, M', D', U'. assert (ms' = ms) by congruence. assert (ds' = ds) by congruence.
  assert (x' = x) by congruence. subst ms' ds' x'.
  assert (Hz : Forall (fun z => 0 <= z)%Z zs).
  { clear - F P. induction F as [|q z ds zs I F IH]; constructor; inversion P; subst.
    - unfold integral in I. rewrite I in H1. change 0%Q with (inject_Z 0) in H1. rewrite <- Zle_Qle in H1. exact H1.
    - apply IH. assumption. }
  assert (Hu : (0 <= ur)%Z).
  { destruct C1 as (C1 & _). specialize (C1 X). destruct C1 as (_ & C1).
    assert (Q : (inject_Z 0 < inject_Z (ur + 1))%Q) by (eapply Qle_lt_trans; [exact X|exact C1]). rewrite <- Zlt_Qlt in Q. lia. }
  assert (Lz : length ms = length zs) by (rewrite L; clear - F; induction F; cbn; congruence).
  rewrite E, app_length, repeat_length, Nat2Z.inj_add, Z2Nat.id by exact Hu.
  rewrite (replicated_length ms zs rep R Lz Hz). rewrite <- S. exact C2.
Qed.

Lemma count_repeat : forall (m : Q) n (p : Q -> bool), length (filter p (repeat m n)) = if p m then n else 0%nat.
Proof. intros m n p. induction n as [|n IH]; cbn; [destruct (p m); reflexivity|]. destruct (p m); cbn; rewrite IH; reflexivity. Qed.

(** Each mass occurs as often as its degeneracies say, and the massless ones come last. *)
Theorem C82_masses : forall n_eff n_ur ms ds r, neutrinos n_eff n_ur ms ds = Ok r ->
  exists zs x ur, Forall2 integral ds zs /\ n_ur = [x] /\ cut x ur
  /\ forall p : Q -> bool,
     length (filter p r) =
       (fold_right Nat.add 0%nat (map (fun md => if p (fst md) then Z.to_nat (snd md) else 0%nat) (combine ms zs))
        + if p 0%Q then Z.to_nat ur else 0)%nat.
Proof.
  intros n_eff n_ur ms ds r H. apply neutrinos_iff in H.
  destruct H as (zs & x & ur & n & rep & F & -> & C1 & C2 & E & R & ->). exists zs, x, ur. split; [exact F|].
  split; [reflexivity|]. split; [exact C1|].
  intro p. rewrite filter_app, app_length, count_repeat. f_equal. clear - R. induction R as [zs|ms|m ms d ds r R IH].
  - reflexivity.
  - destruct ms; reflexivity.
  - cbn [combine map fold_right fst snd]. rewrite filter_app, app_length, count_repeat, IH. reflexivity.
Qed.

(** A file without neutrino fields: three massless neutrinos. *)
Example C82_default : neutrinos (304 # 100) [304 # 100] [0%Q] [0%Q] = Ok [0%Q; 0%Q; 0%Q].
Proof. reflexivity. Qed.

Definition cosmology_example : dict :=
  [ (txt "H0 [internal units]", HArr [7 # 100]); (txt "Omega_b", HArr [5 # 100]); (txt "Omega_lambda", HArr [7 # 10]);
    (txt "Omega_r", HArr [1 # 10000]); (txt "Omega_m", HArr [3 # 10]); (txt "w_0", HArr [(-1)%Q]); (txt "w_a", HArr [0%Q]);
    (txt "N_eff", HArr [305 # 100]); (txt "M_nu_eV", HArr [6 # 100]); (txt "deg_nu", HArr [1%Q]); (txt "N_ur", HArr [204 # 100]) ].

Example C81_example : forall newton stefan light time_unit, exists c,
  to_astropy newton stefan light time_unit cosmology_example = Ok c
  /\ ac_H0 c = 7 # 100 /\ ac_Om0 c = 3 # 10 /\ ac_Ode0 c = 7 # 10 /\ ac_Neff c = 305 # 100
  /\ ac_m_nu c = [6 # 100; 0%Q; 0%Q]
  /\ ac_Tcmb0 c = background_temperature newton stefan light time_unit (7 # 100) (1 # 10000).
Proof. intros. eexists. split; [reflexivity|]. repeat split. Qed.

(** A missing field is refused, whatever the others are. *)
Theorem C81_missing_refused : forall newton stefan light time_unit d key,
  In key ["H0 [internal units]"; "Omega_b"; "Omega_lambda"; "Omega_r"; "Omega_m"; "w_0"; "w_a"]%string ->
  missing d key -> exists e, to_astropy newton stefan light time_unit d = Err e.
Proof.
  intros newton stefan light time_unit d key I M. destruct (to_astropy newton stefan light time_unit d) as [c|e] eqn:E; [|eauto].
  exfalso. apply C81_conversion in E. destruct E as (omr & G1 & G2 & G3 & G4 & G5 & G6 & G7 & _).
  assert (Q : exists x, gives d key x).
  { repeat (destruct I as [<-|I]; [eauto|]). destruct I. }
  destruct Q as (x & v & V & _). unfold has, missing in *. congruence.
Qed.

(** A snapshot of a cosmological run is refused when its neutrinos do not fit. *)
Theorem C81_snapshot : forall newton stefan light time_unit text_error is_date k f m,
  read_metadata text_error is_date (convertible newton stefan light time_unit) k f = Ok m -> cosmological f true ->
  exists c, to_astropy newton stefan light time_unit (cosmology_in f) = Ok c /\ shows m "cosmology" (VCosmology (cosmology_in f)).
Proof.
  intros newton stefan light time_unit text_error is_date k f m R C.
  destruct (C77_cosmology _ _ _ _ _ _ R) as (A & _). destruct (A C) as (O & S). unfold convertible in O.
  destruct (to_astropy newton stefan light time_unit (cosmology_in f)) as [c|]; [|discriminate]. eauto.
Qed.

(** Fewer masses than degeneracies: neutrinos are lost and nothing is refused. *)
Theorem C82_lost_refuted : exists r, neutrinos 3%Q [0%Q] [1 # 10] [1%Q; 1%Q; 1%Q] = Ok r /\ length r = 1%nat.
Proof. eexists. split; reflexivity. Qed.

(** A negative degeneracy: more neutrinos than effective ones. *)
Theorem C82_negative_refuted : exists r, neutrinos 2%Q [3%Q] [1 # 10] [(-1)%Q] = Ok r /\ length r = 3%nat.
Proof. eexists. split; reflexivity. Qed.

(** The fractions of the massless and effective numbers are not compared. *)
Theorem C82_fractions_refuted : exists r, neutrinos (399 # 100) [2%Q] [1 # 10] [1%Q] = Ok r.
Proof. eexists. reflexivity. Qed.

(** A fractional degeneracy is refused although the sum is a whole number. *)
Theorem C82_fractional_refuted : neutrinos 3%Q [0%Q] [1 # 10; 2 # 10] [3 # 2; 3 # 2] = Err AttributeError.
Proof. reflexivity. Qed.

(** A file with massive neutrinos and no N_ur gets three more massless ones, and is refused. *)
Theorem C82_default_ur_refuted : forall newton stefan light time_unit,
  to_astropy newton stefan light time_unit (removelast cosmology_example) = Err AttributeError.
Proof. reflexivity. Qed.

Print Assumptions C81_conversion.
Print Assumptions C81_temperature.
Print Assumptions C81_radiation.
Print Assumptions C82_count.
Print Assumptions C82_masses.
Print Assumptions C81_missing_refused.
Print Assumptions C81_snapshot.
Print Assumptions C82_lost_refuted.
Print Assumptions C82_negative_refuted.
Print Assumptions C82_fractions_refuted.
Print Assumptions C82_fractional_refuted.
Print Assumptions C82_default_ur_refuted.
