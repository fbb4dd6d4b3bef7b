(** C109: the units of a file, and what they make of a round trip. *)
From Coq Require Import String Ascii List ZArith QArith Qreals Reals Bool Lia Lra.
From Verif Require Import Base BaseLemmas NamesModel NamesProofs MetaModel MetaSpec MetaGroupProofs CosmoModel CosmoSpec CosmoProofs.
From Verif Require Import WriterModel WriterSpec WriterProofs WriterFileProofs WriterHistProofs WriterUnitProofs WriterTheorems.
From Verif Require Import AssignModel AssignSpec AssignTheorems.
From Verif Require Import CtorModel LabelModel TripModel TripSpec TripTheorems UnitsModel UnitsSpec.
Import ListNotations.
Open Scope R_scope.

(** ** One unit *)

Lemma pow10_plus : forall a b, powerRZ 10 (a + b) = powerRZ 10 a * powerRZ 10 b.
Proof. intros. apply powerRZ_add. lra. Qed.
Lemma pow10_4 : powerRZ 10 4 = 10000.
Proof. unfold powerRZ. change (Pos.to_nat 4) with 4%nat. cbn [pow]. lra. Qed.
Lemma pow10_5 : powerRZ 10 5 = 100000.
Proof. unfold powerRZ. change (Pos.to_nat 5) with 5%nat. cbn [pow]. lra. Qed.

Lemma nearest_read : forall bases u v, Forall (fun b => 0 < b) bases -> 0 < u ->
  nearest bases u = Ok v -> read_as (fun b => In b bases) u v.
Proof.
  intros bases u v Hb Hu H.
  destruct (C55_nearest_unit bases u v Hb Hu H) as (c & Hc & Hn & Hv & _).
  exists c. split; [exact Hc|]. split; [exact Hn|].
  assert (Hc0 : 0 < c) by (rewrite Forall_forall in Hb; auto).
  assert (Hq : 0 < u / c) by (apply Rdiv_lt_0_compat; auto).
  set (x := u / c) in *. assert (Ex : u = x * c) by (unfold x; field; lra).
  unfold round5 in Hv. pose proof (mantissa x Hq) as Hm. pose proof (pow10_pos (decade x)) as Hp.
  set (p := powerRZ 10 (decade x)) in *.
  assert (Eq : x / p * p = x) by (field; lra). set (q := x / p) in *.
  pose proof (Int_part_bounds (q + / 2)) as [B1 B2]. set (m := Int_part (q + / 2)) in *.
  exists m, (decade x). split; [|split; [exact Hv|split]].
  - assert (A : IZR 9999 < IZR m) by lra.
    assert (B : IZR m < IZR 100001) by lra.
    apply lt_IZR in A. apply lt_IZR in B. lia.
  - fold p. rewrite Hv, Ex.
    replace (IZR m * p * c - x * c) with ((IZR m - q) * (p * c)) by (rewrite <- Eq; ring).
    assert (0 < p * c) by (apply Rmult_lt_0_compat; auto).
    rewrite Rabs_mult, (Rabs_right (p * c)) by lra.
    assert (Hh : Rabs (IZR m - q) <= / 2) by (apply Rabs_le; lra).
    apply Rle_trans with (/ 2 * (p * c)); [apply Rmult_le_compat_r; lra|]. lra.
  - rewrite !pow10_plus, pow10_4, pow10_5. fold p. rewrite Ex, <- Eq. split.
    + apply Rmult_le_compat_r; [lra|]. rewrite (Rmult_comm p). apply Rmult_le_compat_r; lra.
    + apply Rmult_lt_compat_r; [lra|]. rewrite (Rmult_comm p). apply Rmult_lt_compat_r; lra.
Qed.

(** The read unit is within 5e-5, and exact if five figures are enough. *)
Lemma read_as_close : forall (base : R -> Prop) u v, (forall b, base b -> 0 < b) -> read_as base u v ->
  0 < v /\ Rabs (v - u) <= u / 20000.
Proof.
  intros base u v Hb (c & Hc & _ & m & k & Hm & Hv & He & Hl & Hr).
  assert (Hc0 : 0 < c) by auto.
  pose proof (pow10_pos k) as Hp. rewrite pow10_plus, pow10_4 in Hl.
  assert (Hpc : 0 < powerRZ 10 k * c) by (apply Rmult_lt_0_compat; auto).
  split.
  - rewrite Hv. apply Rmult_lt_0_compat; [|exact Hc0]. apply Rmult_lt_0_compat; [|exact Hp].
    apply IZR_lt. lia.
  - apply Rle_trans with (1 := He). replace (powerRZ 10 k * 10000 * c) with (10000 * (powerRZ 10 k * c)) in Hl by ring. lra.
Qed.

Lemma pow10_lt : forall a b, (a < b)%Z -> powerRZ 10 a * 10 <= powerRZ 10 b.
Proof.
  intros a b H. replace b with (a + 1 + (b - a - 1))%Z by lia. rewrite !pow10_plus.
  rewrite powerRZ_1.
  pose proof (pow10_pos a). assert (1 <= powerRZ 10 (b - a - 1)).
  { assert (Hn : (0 <= b - a - 1)%Z) by lia. revert Hn. generalize (b - a - 1)%Z. intros n Hn.
    rewrite <- (Z2Nat.id n) by exact Hn. rewrite <- pow_powerRZ. apply pow_R1_Rle. lra. }
  nra.
Qed.

(** Only one number can be read. *)
Lemma read_as_five : forall (base : R -> Prop) u v m k, (forall b, base b -> 0 < b) -> read_as base u v ->
  (forall c, base c -> (forall b, base b -> Rabs (ln (c / u)) <= Rabs (ln (b / u))) ->
     u = IZR m * powerRZ 10 k * c) ->
  (10000 <= m < 100000)%Z -> v = u.
Proof.
  intros base u v m k Hb (c & Hc & Hn & m' & k' & Hm' & Hv & He & Hl & Hr) Hu Hm.
  specialize (Hu c Hc Hn).
  assert (Hc0 : 0 < c) by auto.
  assert (Hk : k' = k).
  { rewrite Hu, pow10_plus, pow10_4 in Hl. rewrite Hu, pow10_plus, pow10_5 in Hr.
    assert (M1 : 10000 <= IZR m) by (apply IZR_le; lia).
    assert (M2 : IZR m < 100000) by (apply IZR_lt; lia).
    pose proof (pow10_pos k) as P. pose proof (pow10_pos k') as P'.
    apply Rmult_le_reg_r in Hl; [|exact Hc0]. apply Rmult_lt_reg_r in Hr; [|exact Hc0].
    destruct (Z_lt_le_dec k k') as [H|H].
    - apply pow10_lt in H. nra.
    - destruct (Z_lt_le_dec k' k) as [H'|H']; [|lia]. apply pow10_lt in H'. nra. }
  subst k'. rewrite Hv. rewrite Hu in *. pose proof (pow10_pos k) as P.
  assert (Hpc : 0 < powerRZ 10 k * c) by (apply Rmult_lt_0_compat; auto).
  replace (v - IZR m * powerRZ 10 k * c) with ((IZR m' - IZR m) * (powerRZ 10 k * c)) in He
    by (rewrite Hv; ring).
  rewrite Rabs_mult, (Rabs_right (powerRZ 10 k * c)) in He by lra.
  assert (Hd : Rabs (IZR m' - IZR m) < 1).
  { apply Rmult_lt_reg_r with (powerRZ 10 k * c); [exact Hpc|]. lra. }
  rewrite <- minus_IZR in Hd. apply Rabs_def2 in Hd. destruct Hd as (D1 & D2).
  assert (m' = m).
  { assert (A : IZR (m' - m) < IZR 1) by exact D1. assert (B : IZR (-1) < IZR (m' - m)) by exact D2.
    apply lt_IZR in A. apply lt_IZR in B. lia. }
  subst m'. reflexivity.
Qed.

Lemma read_as_iff : forall (P Q : R -> Prop) u v, (forall b, P b <-> Q b) -> read_as P u v -> read_as Q u v.
Proof.
  intros P Q u v H (c & Hc & Hn & R). exists c. split; [apply H; exact Hc|]. split; [|exact R].
  intros b Hb. apply Hn. apply H. exact Hb.
Qed.

Lemma mass_iff : forall c b, In b (mass_units c) <-> unit_of_mass c b.
Proof.
  intros c b. unfold mass_units. cbn [In]. split.
  - intros [<-|[<-|[<-|[<-|[]]]]]; constructor.
  - intros []; auto.
Qed.
Lemma length_iff : forall c b, In b (length_units c) <-> unit_of_length c b.
Proof.
  intros c b. unfold length_units. cbn [In]. split.
  - intros [<-|[<-|[<-|[<-|[<-|[<-|[<-|[<-|[]]]]]]]]]; constructor.
  - intros []; auto 10.
Qed.
Lemma time_iff : forall c b, In b (time_units c) <-> unit_of_time c b.
Proof.
  intros c b. unfold time_units. cbn [In]. split.
  - intros [<-|[<-|[<-|[<-|[]]]]]; constructor.
  - intros []; auto.
Qed.
Lemma cgs_iff : forall b, In b [1] <-> cgs_only b.
Proof. intro b. unfold cgs_only. cbn [In]. intuition. Qed.

Lemma mass_pos : forall c, proper_consts c -> Forall (fun b => 0 < b) (mass_units c).
Proof. intros c (A & B & C & D & E). unfold mass_units. repeat (constructor; [lra|]). constructor. Qed.
Lemma length_pos : forall c, proper_consts c -> Forall (fun b => 0 < b) (length_units c).
Proof. intros c (A & B & C & D & E). unfold length_units. repeat (constructor; [lra|]). constructor. Qed.
Lemma time_pos : forall c, proper_consts c -> Forall (fun b => 0 < b) (time_units c).
Proof. intros c (A & B & C & D & E). unfold time_units. repeat (constructor; [lra|]). constructor. Qed.

(** ** The attributes *)

Lemma known_iff : forall key, existsb (name_eqb (txt key)) unit_names = true <-> of_units key.
Proof.
  intro key. unfold of_units, unit_names. rewrite existsb_exists. split.
  - intros (n & Hn & E). apply name_eqb_iff in E. subst n. apply in_map_iff in Hn.
    destruct Hn as (k & Hk & Hin). apply txt_inj in Hk. subst k. exact Hin.
  - intro H. exists (txt key). split; [apply in_map; exact H|]. apply name_eqb_iff. reflexivity.
Qed.

Lemma quantity_like : forall kv, unit_like kv -> exists r, starts_with (snd kv) r /\ quantity kv = Ok (fst kv, r).
Proof.
  intros [n v] (key & r & Hn & Hk & Hs). cbn [fst snd] in *. exists r. split; [exact Hs|].
  unfold quantity. cbn [fst snd]. inversion Hs; subst. cbn [item_0 bind].
  rewrite (proj2 (known_iff key) Hk). reflexivity.
Qed.

Lemma quantities : forall d, Forall unit_like d -> exists u, all_ok (map quantity d) = Ok u
  /\ map fst u = map fst d /\ Forall2 (fun kv nr => fst nr = fst kv /\ starts_with (snd kv) (snd nr)) d u.
Proof.
  induction d as [|kv d IH]; intro H.
  - exists []. auto.
  - inversion H as [|? ? H1 H2]; subst. destruct (IH H2) as (u & E & F & G).
    destruct (quantity_like kv H1) as (r & Hs & Hq).
    exists ((fst kv, r) :: u). cbn [map all_ok]. rewrite Hq, E. split; [reflexivity|].
    split; [cbn; rewrite F; reflexivity|]. constructor; [auto|exact G].
Qed.

Lemma starts_unique : forall v r r', starts_with v r -> starts_with v r' -> r = r'.
Proof. intros v r r' H H'. inversion H; subst. inversion H'; subst. reflexivity. Qed.

Lemma Forall2_at : forall A B (P : A -> B -> Prop) l m x, Forall2 P l m -> In x l -> exists y, In y m /\ P x y.
Proof.
  intros A B P l m x H. induction H as [|a b l m H1 H2 IH]; intros [].
  - subst. exists b. split; [left; reflexivity|exact H1].
  - destruct (IH H) as (y & Hy & Hp). exists y. split; [right; exact Hy|exact Hp].
Qed.

Lemma named_gives : forall d u key r, NoDup (map fst d) -> map fst u = map fst d ->
  Forall2 (fun kv nr => fst nr = fst kv /\ starts_with (snd kv) (snd nr)) d u ->
  gives d key r -> named u key = Ok r.
Proof.
  intros d u key r N F G (v & Hv & Hs). unfold named.
  destruct (Forall2_at _ _ _ _ _ _ G Hv) as ([n r'] & Hin & Hn & Hr). cbn [fst snd] in *. subst n.
  rewrite (starts_unique _ _ _ Hs Hr).
  assert (E : dict_get u (txt key) = Some r') by (apply dict_get_in; [rewrite F; exact N|exact Hin]).
  rewrite E. reflexivity.
Qed.

Lemma nearest_total : forall b t u, exists v, nearest (b :: t) u = Ok v.
Proof. intros. unfold nearest. eauto. Qed.

(** C109.  If the attributes are the five units, each a list that starts with a positive number, the
    units of the file are these numbers, each rounded to five figures in a nearest base unit. *)
Theorem C109_read : forall c d m l t i k,
  proper_consts c -> Forall unit_like d -> NoDup (map fst d) ->
  gives d "Unit mass in cgs (U_M)" m -> gives d "Unit length in cgs (U_L)" l ->
  gives d "Unit time in cgs (U_t)" t -> gives d "Unit current in cgs (U_I)" i ->
  gives d "Unit temperature in cgs (U_T)" k ->
  0 < m -> 0 < l -> 0 < t -> 0 < i -> 0 < k ->
  exists s, get_unit_dictionary c (Some d) = Ok s
    /\ read_as (unit_of_mass c) m (uM s) /\ read_as (unit_of_length c) l (uL s)
    /\ read_as (unit_of_time c) t (ut s) /\ read_as cgs_only i (uI s) /\ read_as cgs_only k (uT s)
    /\ uX s = 1.
Proof.
  intros c d m l t i k Hc Hd N Gm Gl Gt Gi Gk Pm Pl Pt Pi Pk.
  destruct (quantities d Hd) as (u & E & F & G).
  destruct (nearest_total 1 [1000; k_mearth c; k_msun c] m) as (vm & Em).
  destruct (nearest_total 1 [100; 100000; k_rearth c; k_pc c; 1000 * k_pc c; 1000000 * k_pc c; 1000000000 * k_pc c] l) as (vl & El).
  destruct (nearest_total 1 [k_year c; 1000000 * k_year c; 1000000000 * k_year c] t) as (vt & Et).
  destruct (nearest_total 1 [] i) as (vi & Ei). destruct (nearest_total 1 [] k) as (vk & Ek).
  fold (mass_units c) in Em. fold (length_units c) in El. fold (time_units c) in Et.
  fold current_units in Ei. fold temperature_units in Ek.
  exists (mkusys vm vl vt vk vi 1). split.
  - unfold get_unit_dictionary. rewrite E. cbn [bind].
    rewrite (named_gives d u _ m N F G Gm). cbn [bind]. rewrite Em. cbn [bind].
    rewrite (named_gives d u _ l N F G Gl). cbn [bind]. rewrite El. cbn [bind].
    rewrite (named_gives d u _ t N F G Gt). cbn [bind]. rewrite Et. cbn [bind].
    rewrite (named_gives d u _ i N F G Gi). cbn [bind]. rewrite Ei. cbn [bind].
    rewrite (named_gives d u _ k N F G Gk). cbn [bind]. rewrite Ek. reflexivity.
  - cbn [uM uL ut uI uT uX].
    split; [apply (read_as_iff _ _ _ _ (mass_iff c)); apply nearest_read; auto using mass_pos|].
    split; [apply (read_as_iff _ _ _ _ (length_iff c)); apply nearest_read; auto using length_pos|].
    split; [apply (read_as_iff _ _ _ _ (time_iff c)); apply nearest_read; auto using time_pos|].
    assert (P1 : Forall (fun b => 0 < b) [1]) by (constructor; [lra|constructor]).
    split; [apply (read_as_iff _ _ _ _ cgs_iff); apply nearest_read; auto|].
    split; [apply (read_as_iff _ _ _ _ cgs_iff); apply nearest_read; auto|]. reflexivity.
Qed.

Lemma all_ok_fails : forall A B (f : A -> res B) l1 x l2 e, (forall y, In y l1 -> exists z, f y = Ok z) ->
  f x = Err e -> all_ok (map f (l1 ++ x :: l2)) = Err e.
Proof.
  intros A B f l1 x l2 e H Hx. induction l1 as [|y l1 IH]; cbn [app map all_ok].
  - rewrite Hx. reflexivity.
  - destruct (H y (or_introl eq_refl)) as (z & ->). rewrite IH; [reflexivity|]. intros y' Hy. apply H. right. exact Hy.
Qed.

(** C109.  Otherwise the file cannot be read: without a group of units, without one of the five, or with an
    attribute that is no list of numbers or no unit; the first such attribute counts. *)
Theorem C109_unreadable : forall c,
  get_unit_dictionary c None = Err KeyError
  /\ (forall d key, Forall unit_like d -> of_units key -> ~ In (txt key) (map fst d) ->
        get_unit_dictionary c (Some d) = Err KeyError)
  /\ (forall d1 d2 n v, Forall unit_like d1 ->
        (v = HArr [] \/ (exists x, v = HNum x) \/ v = HStr [] \/ v = HBytes [] \/ v = HStrs [] ->
         get_unit_dictionary c (Some (d1 ++ (n, v) :: d2)) = Err IndexError)
        /\ (forall x r, v = HArr (x :: r) -> (forall key, of_units key -> n <> txt key) ->
            get_unit_dictionary c (Some (d1 ++ (n, v) :: d2)) = Err KeyError)
        /\ (forall x r key, v = HStr (x :: r) -> of_units key -> n = txt key ->
            get_unit_dictionary c (Some (d1 ++ (n, v) :: d2)) = Err RuntimeError)).
Proof.
  intro c. split; [reflexivity|]. split.
  - intros d key Hd Hk Hn. destruct (quantities d Hd) as (u & E & F & _).
    unfold get_unit_dictionary. rewrite E. cbn [bind].
    assert (Hmiss : named u key = Err KeyError).
    { unfold named. destruct (dict_get u (txt key)) as [r|] eqn:D; [|reflexivity]. exfalso. apply Hn.
      rewrite <- F. apply dict_get_in' in D. apply (in_map fst) in D. exact D. }
    assert (Hany : forall s, named u s = Err KeyError \/ exists r, named u s = Ok r).
    { intro s. unfold named. destruct (dict_get u (txt s)); eauto. }
    assert (Hnear : forall b t x, exists v, nearest (b :: t) x = Ok v) by (intros; apply nearest_total).
    unfold mass_units, length_units, time_units, current_units, temperature_units.
    destruct (Hany "Unit mass in cgs (U_M)"%string) as [->|(m & Em)]; [reflexivity|]. rewrite Em. cbn [bind].
    destruct (Hnear 1 [1000; k_mearth c; k_msun c] m) as (? & ->). cbn [bind].
    destruct (Hany "Unit length in cgs (U_L)"%string) as [->|(l & El)]; [reflexivity|]. rewrite El. cbn [bind].
    match goal with |- context [nearest (?b :: ?t) ?x] => destruct (Hnear b t x) as (? & ->) end. cbn [bind].
    destruct (Hany "Unit time in cgs (U_t)"%string) as [->|(t & Et)]; [reflexivity|]. rewrite Et. cbn [bind].
    match goal with |- context [nearest (?b :: ?t) ?x] => destruct (Hnear b t x) as (? & ->) end. cbn [bind].
    destruct (Hany "Unit current in cgs (U_I)"%string) as [->|(i & Ei)]; [reflexivity|]. rewrite Ei. cbn [bind].
    match goal with |- context [nearest (?b :: ?t) ?x] => destruct (Hnear b t x) as (? & ->) end. cbn [bind].
    destruct (Hany "Unit temperature in cgs (U_T)"%string) as [->|(k & Ek)]; [reflexivity|]. exfalso.
    unfold of_units in Hk. cbn [In] in Hk.
    destruct Hk as [<-|[<-|[<-|[<-|[<-|[]]]]]]; congruence.
  - intros d1 d2 n v H1.
    assert (Hok : forall y, In y d1 -> exists z, quantity y = Ok z).
    { intros y Hy. rewrite Forall_forall in H1. destruct (quantity_like y (H1 y Hy)) as (r & _ & ->). eauto. }
    assert (Hfail : forall e, quantity (n, v) = Err e -> get_unit_dictionary c (Some (d1 ++ (n, v) :: d2)) = Err e).
    { intros e He. unfold get_unit_dictionary. rewrite (all_ok_fails _ _ quantity d1 (n, v) d2 e Hok He). reflexivity. }
    split; [|split].
    + intros [->|[(x & ->)|[->|[->| ->]]]]; apply Hfail; reflexivity.
    + intros x r -> Hno. apply Hfail. unfold quantity. cbn [fst snd item_0 bind].
      destruct (existsb (name_eqb n) unit_names) eqn:E; [|reflexivity]. exfalso.
      apply existsb_exists in E. destruct E as (n' & Hn' & E). apply name_eqb_iff in E. subst n'.
      unfold unit_names in Hn'. apply in_map_iff in Hn'. destruct Hn' as (key & Hk & Hin).
      apply (Hno key Hin). auto.
    + intros x r key -> Hk ->. apply Hfail. unfold quantity. cbn [fst snd item_0 bind].
      rewrite (proj2 (known_iff key) Hk). reflexivity.
Qed.

(** C109.  Bytes are taken for the code of the first one; lists of texts are refused like texts. *)
Theorem C109_bytes : forall c d1 d2 n x r,
  get_unit_dictionary c (Some (d1 ++ (n, HBytes (x :: r)) :: d2))
  = get_unit_dictionary c (Some (d1 ++ (n, HArr [inject_Z (Z.of_nat (nat_of_ascii x))]) :: d2))
  /\ forall y s, get_unit_dictionary c (Some (d1 ++ (n, HStrs (y :: s)) :: d2))
     = get_unit_dictionary c (Some (d1 ++ (n, HStr (x :: r)) :: d2)).
Proof.
  intros c d1 d2 n x r.
  assert (Q : quantity (n, HBytes (x :: r)) = quantity (n, HArr [inject_Z (Z.of_nat (nat_of_ascii x))])).
  { unfold quantity. cbn [fst snd item_0 bind].
    replace (Q2R (inject_Z (Z.of_nat (nat_of_ascii x)))) with (INR (nat_of_ascii x)); [reflexivity|].
    rewrite INR_IZR_INZ. unfold Q2R, inject_Z. cbn [Qnum Qden]. field. }
  split.
  - unfold get_unit_dictionary. rewrite !map_app. cbn [map]. rewrite Q. reflexivity.
  - intros y s. unfold get_unit_dictionary. rewrite !map_app. cbn [map]. reflexivity.
Qed.

(** ** Files of the writer *)

Lemma attributes_like : forall num u, Forall unit_like (unit_attributes num u) /\ NoDup (map fst (unit_attributes num u)).
Proof.
  intros num u. split.
  - unfold unit_attributes.
    repeat (constructor; [eexists; eexists; cbn [fst snd];
                          split; [reflexivity|]; split; [unfold of_units; cbn [In]; tauto|]; constructor|]).
    constructor.
  - cbn [unit_attributes map fst].
    repeat (constructor; [cbn [In]; intro H;
      repeat (destruct H as [H|H]; [apply txt_inj in H; discriminate|]); exact H|]).
    constructor.
Qed.

(** The units of a file of the writer. *)
Lemma written_read : forall c num u, proper_consts c ->
  0 < Q2R (num (uM u)) -> 0 < Q2R (num (uL u)) -> 0 < Q2R (num (ut u)) -> 0 < Q2R (num (uT u)) ->
  exists s, get_unit_dictionary c (Some (unit_attributes num u)) = Ok s
    /\ read_as (unit_of_mass c) (Q2R (num (uM u))) (uM s)
    /\ read_as (unit_of_length c) (Q2R (num (uL u))) (uL s)
    /\ read_as (unit_of_time c) (Q2R (num (ut u))) (ut s)
    /\ read_as cgs_only (Q2R (num (uT u))) (uT s) /\ uI s = 1 /\ uX s = 1.
Proof.
  intros c num u Hc P1 P2 P3 P4. destruct (attributes_like num u) as (L & N).
  assert (G : forall key q, In (txt key, HArr [q]) (unit_attributes num u) -> gives (unit_attributes num u) key (Q2R q)).
  { intros key q H. exists (HArr [q]). split; [exact H|constructor]. }
  assert (P5 : 0 < Q2R 1) by (rewrite Q2R_1; lra).
  destruct (C109_read c (unit_attributes num u) (Q2R (num (uM u))) (Q2R (num (uL u))) (Q2R (num (ut u)))
              (Q2R 1) (Q2R (num (uT u))) Hc L N) as (s & E & R1 & R2 & R3 & R4 & R5 & R6);
    try (apply G; unfold unit_attributes; cbn [In]; tauto); auto.
  exists s. split; [exact E|]. split; [exact R1|]. split; [exact R2|]. split; [exact R3|]. split; [exact R5|].
  split; [|exact R6].
  rewrite Q2R_1 in R4.
  assert (H : uI s = 1); [|exact H].
  apply (read_as_five cgs_only 1 (uI s) 10000 (-4)).
  - intros b ->. lra.
  - exact R4.
  - intros b -> _. replace (powerRZ 10 (-4)) with (/ 10000); [field|].
    unfold powerRZ. change (Pos.to_nat 4) with 4%nat. cbn [pow]. field.
  - lia.
Qed.

Lemma written_units : forall fz s l i st' f, Forall op_shaped l -> Forall no_mutation l -> Forall (one_system s) l ->
  write fz (wrun fz init l) i = (st', Written f) ->
  f_units f = mkusys (uM s) (uL s) (ut s) (uT s) 1 1.
Proof.
  intros fz s l i st' f Hsh Hno Hone H.
  destruct (reachable fz _ Hsh) as (Hok & Hs).
  destruct (nth_error (writers (wrun fz init l)) i) as [w|] eqn:Hw.
  2:{ unfold write in H. rewrite Hw in H. discriminate. }
  destruct init_ok as (I1 & I2).
  destruct (run_fields fz s _ init Hsh Hno Hone I1 I2 (init_fields s)) as (Hf & _).
  destruct (write_cases _ _ _ _ _ _ Hok Hs Hw H) as
    [(er & Hc & _) | (w' & names & gen & Ho & Hwf)]; [discriminate|].
  symmetry in Hwf. unfold write_file in Hwf.
  destruct (all_ok _) as [ms|]; [|discriminate].
  destruct (write_groups fz st' w' names) as [gs|] eqn:Eg; [|discriminate].
  inversion Hwf; subst f. cbn [f_units].
  assert (Hsys : w_sys w' = s).
  { destruct Ho as (_ & _ & _ & E & _). rewrite E. apply (Hf _ _ Hw). }
  rewrite Hsys. reflexivity.
Qed.

Lemma stored_load : forall s name at_, proper s -> uI s = 1 -> uX s = 1 ->
  measures name (mkdims (at_M at_) (at_L at_) (at_t at_) (at_T at_) (at_I at_) 0) ->
  stored_in s name (fst (load_units s at_)).
Proof.
  intros s name at_ Hp HI HX Hm.
  pose proof (stored_base s name _ Hp Hm) as H.
  assert (Es : s = mkusys (uM s) (uL s) (ut s) (uT s) 1 1) by (rewrite <- HI at 1; rewrite <- HX at 1; destruct s; reflexivity).
  rewrite <- (load_units_base s at_) in H; cbn [dM dL dt dT dI dX]; try reflexivity.
  - rewrite <- Es in H. exact H.
  - inversion Hm as [? G|? G|? G|? G|? G]; subst; destruct G as (_ & _ & _ & _ & G & _); exact G.
Qed.

Lemma stored_positive : forall s name u, proper s -> stored_in s name u -> 0 < u.
Proof.
  intros s name u (P1 & P2 & P3 & _) H. inversion H; subst; auto.
  - apply Rdiv_lt_0_compat; auto.
  - apply Rdiv_lt_0_compat; apply Rmult_lt_0_compat; auto.
Qed.

(** C109.  Without any assumption on the units of the writer: a field is read back with the numbers
    that were given, times the ratio of the unit read from the file to the unit of the writer. *)
Theorem C109_round_trip : forall text_error is_date cosmology_ok show c fz num extra s s' l1 l2 i w st' f k m t g n field d,
  proper_consts c -> proper s ->
  Forall op_shaped (l1 ++ l2) -> Forall no_mutation (l1 ++ l2) -> Forall (one_system s) (l1 ++ l2) ->
  nth_error (writers (wrun fz init (l1 ++ l2))) i = Some w ->
  write fz (wrun fz init (l1 ++ l2)) i = (st', Written f) ->
  leaves_alone extra -> can_be_read extra -> exact_labels num f ->
  0 < Q2R (num (uM s)) -> 0 < Q2R (num (uL s)) -> 0 < Q2R (num (ut s)) -> 0 < Q2R (num (uT s)) ->
  open_metadata text_error is_date cosmology_ok (hdf num extra f) = Ok (k, m) ->
  get_unit_dictionary c (Some (unit_attributes num (f_units f))) = Ok s' ->
  nth_error type_names t = Some n ->
  In (t, g) (f_groups f) -> In (field, d) g -> field <> "particle_ids"%string ->
  exists w' loc x e made u u',
    nth_error (writers st') i = Some w' /\ w_fields w' t field = Some loc
    /\ nth_error (mem st') loc = Some x /\ exponent x = Some e
    /\ load num show (fun _ => s') f m (txt n) (txt field) = Ok (Some made)
    /\ stored_in s field u /\ stored_in s' field u' /\ 0 < u /\ 0 < u'
    /\ forall x0, nth_error (mem (wrun fz init l1)) loc = Some x0 ->
       (e <> 0 \/ (wint x0 = false /\ fz = false) ->
          meaning made = map (fun v => v * (u' / u)) (cgs x0))
       /\ (e = 0 -> wint x0 = true \/ fz = true ->
          meaning made = map (fun v => Rpower (f_a f) 1 * v * (u' / u)) (cgs x0)).
Proof.
  intros te dt_ co show c fz num extra s s' l1 l2 i w st' f k m t g n field d Hc Hp Sh No One Hw H A C X
    P1 P2 P3 P4 O Hs' N Hg Hd Hne.
  set (id := fun u : usys => u).
  assert (Ex : exact_units id s) by reflexivity.
  destruct (C33_read_back fz id s l1 l2 i st' f t g field d Sh No One Ex H Hg Hd Hne)
    as (w' & loc & x & e & W & L & M & E & Back).
  assert (B : written_by fz (l1 ++ l2) w f) by (split; [exact Sh|eauto]).
  destruct (proj1 (C107_loads te dt_ co show (fun _ => s') fz num extra _ w f k m B A C X O t n N) g field d Hg Hd)
    as (z & Lz & Uz & _ & Vz & Fz & _ & Cz & _).
  pose proof (written_units fz s _ i st' f Sh No One H) as Hu.
  destruct (C108_written fz s _ i st' f t g field d Sh No One Hp H Hg Hd Hne) as (Hm & _).
  assert (Hp' : proper s' /\ uI s' = 1 /\ uX s' = 1).
  { destruct (written_read c num (f_units f) Hc) as (s1 & E1 & R1 & R2 & R3 & R4 & R5 & R6);
      try (rewrite Hu; cbn [uM uL ut uT]; assumption).
    assert (s1 = s') by congruence. subst s1.
    assert (Z1 : forall b, unit_of_mass c b -> 0 < b) by (intros b Hb; destruct Hc as (? & ? & ? & ? & ?); inversion Hb; lra).
    assert (Z2 : forall b, unit_of_length c b -> 0 < b) by (intros b Hb; destruct Hc as (? & ? & ? & ? & ?); inversion Hb; lra).
    assert (Z3 : forall b, unit_of_time c b -> 0 < b) by (intros b Hb; destruct Hc as (? & ? & ? & ? & ?); inversion Hb; lra).
    assert (Z4 : forall b, cgs_only b -> 0 < b) by (intros b ->; lra).
    split; [|auto]. unfold proper. rewrite R5, R6.
    split; [apply (read_as_close _ _ _ Z1 R1)|]. split; [apply (read_as_close _ _ _ Z2 R2)|].
    split; [apply (read_as_close _ _ _ Z3 R3)|]. split; [apply (read_as_close _ _ _ Z4 R4)|]. lra. }
  destruct Hp' as (Hp' & HI & HX).
  pose proof (stored_load s' field (ds_attrs d) Hp' HI HX Hm) as St'.
  assert (St : stored_in s field (fst (load_units (f_units f) (ds_attrs d)))).
  { assert (Hpf : proper (f_units f)) by (rewrite Hu; destruct Hp as (? & ? & ? & ? & ? & ?); unfold proper; cbn; repeat split; lra).
    assert (S : stored_in (f_units f) field (fst (load_units (f_units f) (ds_attrs d))))
      by (apply stored_load; [exact Hpf | rewrite Hu; reflexivity | rewrite Hu; reflexivity | exact Hm]).
    clear - S Hu. revert S. generalize (fst (load_units (f_units f) (ds_attrs d))). rewrite Hu.
    intros v S. inversion S; subst; cbn [uM uL ut]; constructor. }
  set (u := fst (load_units (f_units f) (ds_attrs d))) in *.
  set (u' := fst (load_units s' (ds_attrs d))) in *.
  pose proof (stored_positive s field u Hp St) as Pu. pose proof (stored_positive s' field u' Hp' St') as Pu'.
  exists w', loc, x, e, z, u, u'. repeat (split; [assumption|]).
  assert (Me : meaning z = map (fun v => v * (u' / u)) (cgs (read_field id f d))).
  { unfold meaning, cgs. rewrite Uz. cbn [fst read_field wunit]. rewrite map_map.
    assert (Hph : phys (u_arr (m_array z)) = phys (wdata (read_field id f d))).
    { unfold phys. rewrite Vz, Fz, Cz. reflexivity. }
    rewrite Hph. apply map_ext. intro v. unfold id. fold u'. fold u. field. lra. }
  intros x0 H0. destruct (Back x0 H0) as (D & _ & R1 & R2 & R3).
  rewrite Me. split.
  - intros [H1|(H1 & H2)].
    + f_equal. now apply R1.
    + destruct (Req_dec e 0) as [H3|H3]; f_equal; [now apply R3|now apply R1].
  - intros H1 H2. destruct (R2 H1 H2) as (_ & ->). rewrite map_map. reflexivity.
Qed.

(** C109.  If five figures are enough for the units of the writer, the units of the file are those of the
    writer. *)
Theorem C109_exact : forall c num s, proper_consts c -> proper s -> exact_numbers num s ->
  five_figures (unit_of_mass c) (uM s) -> five_figures (unit_of_length c) (uL s) ->
  five_figures (unit_of_time c) (ut s) -> five_figures cgs_only (uT s) ->
  get_unit_dictionary c (Some (unit_attributes num s)) = Ok (mkusys (uM s) (uL s) (ut s) (uT s) 1 1).
Proof.
  intros c num s Hc (P1 & P2 & P3 & P4 & _ & _) (E1 & E2 & E3 & E4) F1 F2 F3 F4.
  destruct (written_read c num s Hc) as (s' & H & R1 & R2 & R3 & R4 & R5 & R6);
    try (rewrite ?E1, ?E2, ?E3, ?E4; assumption).
  rewrite E1 in R1. rewrite E2 in R2. rewrite E3 in R3. rewrite E4 in R4.
  assert (Five : forall (base : R -> Prop) u v, (forall b, base b -> 0 < b) -> five_figures base u -> read_as base u v -> v = u)
    by (intros base u v Hb (m & k & Hm & Hf) Hr; exact (read_as_five base u v m k Hb Hr Hf Hm)).
  apply Five in R1; [|intros b Hb; destruct Hc as (? & ? & ? & ? & ?); inversion Hb; lra|exact F1].
  apply Five in R2; [|intros b Hb; destruct Hc as (? & ? & ? & ? & ?); inversion Hb; lra|exact F2].
  apply Five in R3; [|intros b Hb; destruct Hc as (? & ? & ? & ? & ?); inversion Hb; lra|exact F3].
  apply Five in R4; [|intros b ->; lra|exact F4].
  rewrite H. f_equal. destruct s' as [a1 a2 a3 a4 a5 a6]; cbn [uM uL ut uT uI uX] in *. rewrite R1, R2, R3, R4, R5, R6. reflexivity.
Qed.

(** The nearest base unit of a unit larger than all base units is the largest. *)
Lemma nearest_largest : forall (base : R -> Prop) u c big, (forall b, base b -> 0 < b) ->
  base big -> (forall b, base b -> b <= big) -> big <= u -> base c ->
  (forall b, base b -> Rabs (ln (c / u)) <= Rabs (ln (b / u))) -> c = big.
Proof.
  intros base u c big Hp Hb Hl Hu Hc Hn.
  pose proof (Hp c Hc) as C0. pose proof (Hp big Hb) as B0. pose proof (Hl c Hc) as Hle.
  destruct (Rle_lt_or_eq_dec _ _ Hle) as [Hlt|E]; [|exact E]. exfalso.
  specialize (Hn big Hb). unfold Rdiv in Hn.
  rewrite !ln_mult in Hn by (try apply Rinv_0_lt_compat; lra). rewrite ln_Rinv in Hn by lra.
  pose proof (ln_increasing c big C0 Hlt) as L1.
  assert (L2 : ln big <= ln u) by (destruct Hu as [Hu|<-]; [left; apply ln_increasing; lra|right; reflexivity]).
  rewrite !Rabs_left1 in Hn by lra. lra.
Qed.

(** ... and that of a base unit is itself. *)
Lemma nearest_itself : forall (base : R -> Prop) u c, (forall b, base b -> 0 < b) -> base u -> base c ->
  (forall b, base b -> Rabs (ln (c / u)) <= Rabs (ln (b / u))) -> c = u.
Proof.
  intros base u c Hp Hu Hc Hn. specialize (Hn u Hu). pose proof (Hp u Hu). pose proof (Hp c Hc).
  unfold Rdiv in Hn. rewrite Rinv_r in Hn by lra. rewrite ln_1, Rabs_R0 in Hn.
  pose proof (Rabs_pos (ln (c * / u))) as A.
  assert (E : Rabs (ln (c * / u)) = 0) by lra.
  assert (Z : ln (c * / u) = 0) by (revert E; unfold Rabs; destruct (Rcase_abs _); lra).
  rewrite ln_mult, ln_Rinv in Z by (try apply Rinv_0_lt_compat; lra).
  apply ln_inv; lra.
Qed.

Lemma usual_proper : forall c, usual_consts c -> proper_consts c /\ proper (cosmo_units c).
Proof.
  intros c (A & B & C & D & E & F). split.
  - unfold proper_consts. lra.
  - unfold proper, cosmo_units. cbn [uM uL ut uT uI uX]. lra.
Qed.

(** The default units: 10^10 solar masses, a megaparsec, a megaparsec divided by 10^5 in seconds, and one of the others. *)
Theorem C109_cosmo_units : forall c s, s = cosmo_units c <->
  uM s = 10000000000 * k_msun c /\ uL s = 1000000 * k_pc c /\ ut s = uL s / 100000 /\ uT s = 1 /\ uI s = 1 /\ uX s = 1.
Proof.
  intros c [m l t T i x]. unfold cosmo_units. cbn [uM uL ut uT uI uX]. split.
  - intros [= -> -> -> -> -> ->]. repeat split.
  - intros (-> & -> & -> & -> & -> & ->). reflexivity.
Qed.

(** C109.  The units of files written with the default units: those of mass and length are those of the
    writer; that of time is rounded, and is too small. *)
Theorem C109_default : forall c num, usual_consts c -> exact_numbers num (cosmo_units c) ->
  get_unit_dictionary c (Some (unit_attributes num (cosmo_units c)))
  = Ok (mkusys (uM (cosmo_units c)) (uL (cosmo_units c)) (977790000000 * k_year c) 1 1 1)
  /\ 977790000000 * k_year c < ut (cosmo_units c).
Proof.
  intros c num Hk X.
  destruct (usual_proper c Hk) as (Hc & P1 & P2 & P3 & P4 & _ & _).
  destruct X as (E1 & E2 & E3 & E4).
  destruct (written_read c num (cosmo_units c) Hc) as (s' & H & R1 & R2 & R3 & R4 & R5 & R6);
    try (rewrite ?E1, ?E2, ?E3, ?E4; assumption).
  rewrite E1 in R1. rewrite E2 in R2. rewrite E3 in R3. rewrite E4 in R4.
  assert (Z1 : forall b, unit_of_mass c b -> 0 < b) by (intros b Hb; destruct Hc as (? & ? & ? & ? & ?); inversion Hb; lra).
  assert (Z2 : forall b, unit_of_length c b -> 0 < b) by (intros b Hb; destruct Hc as (? & ? & ? & ? & ?); inversion Hb; lra).
  assert (Z3 : forall b, unit_of_time c b -> 0 < b) by (intros b Hb; destruct Hc as (? & ? & ? & ? & ?); inversion Hb; lra).
  destruct Hk as (K1 & K2 & K3 & K4 & K5 & K6).
  cbn [cosmo_units uM uL ut uT] in *.
  apply (read_as_five _ _ _ 10000 6 Z1) in R1; [| |lia].
  2:{ intros b Hb Hn.
      rewrite (nearest_largest (unit_of_mass c) (10000000000 * k_msun c) b (k_msun c) Z1 (sun c)); auto.
      - replace (powerRZ 10 6) with 1000000 by (unfold powerRZ; change (Pos.to_nat 6) with 6%nat; cbn [pow]; lra). lra.
      - intros b' Hb'. inversion Hb'; lra.
      - lra. }
  apply (read_as_five _ _ _ 10000 (-4) Z2) in R2; [| |lia].
  2:{ intros b Hb Hn.
      rewrite (nearest_itself (unit_of_length c) _ b Z2 (megaparsec c) Hb Hn).
      replace (powerRZ 10 (-4)) with (/10000) by (unfold powerRZ; change (Pos.to_nat 4) with 4%nat; cbn [pow]; lra). lra. }
  assert (V3 : ut s' = 977790000000 * k_year c).
  { destruct R3 as (b & Hb & Hn & m & k & Hm & Hv & He & Hl & Hr).
    assert (Eb : b = 1000000000 * k_year c).
    { apply (nearest_largest (unit_of_time c) (1000000 * k_pc c / 100000) b (1000000000 * k_year c) Z3 (gigayear c)) in Hn; auto.
      - intros b' Hb'. inversion Hb'; lra.
      - lra. }
    subst b.
    assert (Ek : k = (-2)%Z).
    { rewrite pow10_plus, pow10_4 in Hl. rewrite pow10_plus, pow10_5 in Hr.
      pose proof (pow10_pos k).
      assert (T : powerRZ 10 (-2) = /100) by (unfold powerRZ; change (Pos.to_nat 2) with 2%nat; cbn [pow]; lra).
      destruct (Z_lt_le_dec k (-2)) as [G|G].
      - apply pow10_lt in G. rewrite T in G. nra.
      - destruct (Z_lt_le_dec (-2) k) as [G'|G']; [|lia].
        apply pow10_lt in G'. rewrite T in G'. nra. }
    subst k.
    assert (T : powerRZ 10 (-2) = /100) by (unfold powerRZ; change (Pos.to_nat 2) with 2%nat; cbn [pow]; lra).
    rewrite T in Hv, He.
    assert (Em : m = 97779%Z).
    { rewrite Hv in He.
      assert (He' : - (/ 100 * (1000000000 * k_year c) / 2) <= IZR m * / 100 * (1000000000 * k_year c) - 1000000 * k_pc c / 100000 <= / 100 * (1000000000 * k_year c) / 2)
        by (revert He; unfold Rabs; destruct (Rcase_abs _); lra).
      clear He. destruct He' as (He1 & He2).
      assert (97778 < IZR m < 97780) as (G1 & G2) by (split; nra).
      apply lt_IZR in G1. apply lt_IZR in G2. lia. }
    subst m. rewrite Hv. lra. }
  apply (read_as_five _ _ _ 10000 (-4)) in R4; [| intros b ->; lra | | lia].
  2:{ intros b -> _. replace (powerRZ 10 (-4)) with (/10000) by (unfold powerRZ; change (Pos.to_nat 4) with 4%nat; cbn [pow]; lra). lra. }
  split; [|lra].
  rewrite H. rewrite <- R1, <- R2, <- V3. f_equal.
  destruct s' as [a1 a2 a3 a4 a5 a6]; cbn [uM uL ut uT uI uX] in *. rewrite R4, R5, R6. reflexivity.
Qed.

(** C109.  So positions, sizes and masses written with the default units are read back as they are, but
    velocities come back too large by two parts in a million, and energies by four. *)
Theorem C109_default_velocities_refuted : forall c num s', usual_consts c -> exact_numbers num (cosmo_units c) ->
  get_unit_dictionary c (Some (unit_attributes num (cosmo_units c))) = Ok s' ->
  forall field u u', stored_in (cosmo_units c) field u -> stored_in s' field u' ->
    (field = "coordinates"%string \/ field = "smoothing_lengths"%string \/ field = "masses"%string -> u' = u)
    /\ (field = "velocities"%string -> 2 / 1000000 < u' / u - 1 < 3 / 1000000)
    /\ (field = "internal_energy"%string -> 4 / 1000000 < u' / u - 1 < 5 / 1000000).
Proof.
  intros c num s' Hk X H field u u' S S'.
  destruct (C109_default c num Hk X) as (E & Lt). rewrite E in H.
  assert (Es : s' = mkusys (uM (cosmo_units c)) (uL (cosmo_units c)) (977790000000 * k_year c) 1 1 1) by congruence.
  subst s'. clear H E X. destruct Hk as (K1 & K2 & K3 & K4 & K5 & K6).
  set (L := 1000000 * k_pc c). set (t := L / 100000). set (t' := 977790000000 * k_year c).
  assert (T0 : 0 < t') by (unfold t'; lra). assert (L0 : 0 < L) by (unfold L; lra).
  assert (T1 : t' < t) by (unfold t', t, L; lra). 
  assert (B : t' * (1 + 21 / 10000000) < t < t' * (1 + 24 / 10000000)) by (unfold t', t, L; lra).
  assert (Q : 1 + 21 / 10000000 < t / t' < 1 + 24 / 10000000).
  { destruct B as (B1 & B2). split.
    - apply (Rmult_lt_reg_r t'); [exact T0|]. replace (t / t' * t') with t by (field; lra). lra.
    - apply (Rmult_lt_reg_r t'); [exact T0|]. replace (t / t' * t') with t by (field; lra). lra. }
  assert (t <> 0) by lra.
  split; [|split].
  - intros [-> | [-> | -> ]]; inversion S; inversion S'; reflexivity.
  - intros ->. inversion S; inversion S'; subst. cbn [cosmo_units uL ut]. fold L. fold t. fold t'.
    replace (L / t' / (L / t)) with (t / t') by (field; lra). lra.
  - intros ->. inversion S; inversion S'; subst. cbn [cosmo_units uL ut]. fold L. fold t. fold t'.
    replace (L * L / (t' * t') / (L * L / (t * t))) with ((t / t') * (t / t')) by (field; lra).
    split; nra.
Qed.

(** The numbers of unyt. *)
Definition unyt_consts : consts :=
  mkconsts 5972364730419773000000000000 1988415860572227400000000000000000 637813700 3085677580962324500 31557600.

Example unyt_usual : usual_consts unyt_consts.
Proof. unfold usual_consts, unyt_consts. cbn [k_mearth k_msun k_rearth k_pc k_year]. lra. Qed.

Definition unyt_num (x : R) : Q :=
  if Req_EM_T x (10000000000 * k_msun unyt_consts) then 19884158605722274000000000000000000000000000
  else if Req_EM_T x (1000000 * k_pc unyt_consts) then 3085677580962324500000000
  else if Req_EM_T x 1 then 1 else 30856775809623245000.

Example unyt_numbers : exact_numbers unyt_num (cosmo_units unyt_consts).
Proof.
  unfold exact_numbers, cosmo_units, unyt_num. cbn [uM uL ut uT unyt_consts k_msun k_pc].
  repeat match goal with |- context [Req_EM_T ?a ?b] => destruct (Req_EM_T a b); try lra end.
  all: unfold Q2R; cbn [Qnum Qden]; lra.
Qed.

(** ... and units that are read as they are written. *)
Example five_figures_cgs : five_figures cgs_only 1.
Proof.
  exists 10000%Z, (-4)%Z. split; [lia|]. intros b -> _.
  replace (powerRZ 10 (-4)) with (/10000) by (unfold powerRZ; change (Pos.to_nat 4) with 4%nat; cbn [pow]; lra). lra.
Qed.
Example five_figures_velocity : five_figures (unit_of_time unyt_consts) (977790000000 * 31557600).
Proof.
  exists 97779%Z, (-2)%Z. split; [lia|]. intros b Hb Hn.
  rewrite (nearest_largest (unit_of_time unyt_consts) (977790000000 * 31557600) b (1000000000 * k_year unyt_consts)); auto.
  - replace (powerRZ 10 (-2)) with (/100) by (unfold powerRZ; change (Pos.to_nat 2) with 2%nat; cbn [pow]; lra).
    cbn [unyt_consts k_year]. lra.
  - intros b' Hb'. inversion Hb'; cbn [unyt_consts k_year]; lra.
  - constructor.
  - intros b' Hb'. inversion Hb'; cbn [unyt_consts k_year]; lra.
  - cbn [unyt_consts k_year]. lra.
Qed.

Print Assumptions C109_read.
Print Assumptions C109_unreadable.
Print Assumptions C109_bytes.
Print Assumptions C109_round_trip.
Print Assumptions C109_exact.
Print Assumptions C109_default.
Print Assumptions C109_cosmo_units.
Print Assumptions C109_default_velocities_refuted.
