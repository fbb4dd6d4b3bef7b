(** C99: attributes and copies of masks. *)
From Coq Require Import String List Bool Arith Lia.
From Verif Require Import Base MaskNamesModel MaskAttrModel.
Import ListNotations.
Local Open Scope string_scope.

(** * Specification *)

(** What a dictionary holds under a name, without the functions of the model. *)
Inductive holds {A} : list (string * A) -> string -> A -> Prop :=
| holds_here : forall k v d, holds ((k, v) :: d) k v
| holds_later : forall k k' v v' d, k <> k' -> holds d k v -> holds ((k', v') :: d) k v.
Definition absent {A} (d : list (string * A)) (k : string) : Prop := forall v, ~ In (k, v) d.

(** The name under which a mask or its size is stored. *)
Definition stored (shared : bool) (g : string) : string := if shared then "_shared" else "_" ++ g.

(** A mask after [__init__]: it has its metadata, and each of the two dictionaries of names
    is not made yet or is the right one: it has exactly the names of the groups. *)
Definition right_names (sizes shared : bool) (groups : list string) (d : list (string * string)) : Prop :=
  forall k u, In (k, u) d <-> exists g, In g groups
    /\ k = (if sizes then g ++ "_size" else g)
    /\ u = (if sizes then stored shared g ++ "_size" else stored shared g).
Definition made (shared : bool) (groups : list string) (o : object) : Prop :=
  holds o "metadata" (VMeta shared groups)
  /\ (forall sizes, holds o (cache_of sizes) VNone
                    \/ exists d, holds o (cache_of sizes) (VNames d) /\ right_names sizes shared groups d).

(** * Dictionaries *)

Lemma dget_holds : forall A (d : dict A) k v, dget k d = Some v <-> holds d k v.
Proof.
  induction d as [|[k' v'] t IH]; intros k v; cbn.
  - split; [discriminate|inversion 1].
  - destruct (String.eqb_spec k k') as [->|N].
    + split; [injection 1 as ->; constructor|]. inversion 1; subst; congruence.
    + rewrite IH. split; [now constructor|]. inversion 1; subst; [congruence|assumption].
Qed.

Lemma dget_absent : forall A (d : dict A) k, dget k d = None <-> absent d k.
Proof.
  induction d as [|[k' v'] t IH]; intro k; cbn.
  - split; [intros _ v []|reflexivity].
  - unfold absent in *. destruct (String.eqb_spec k k') as [->|N].
    + split; [discriminate|]. intro H. exfalso. apply (H v'). left. reflexivity.
    + rewrite IH. split; intros H v; [intros [E|I]; [congruence|exact (H v I)]|intro I; apply (H v); right; exact I].
Qed.

Lemma dget_dset : forall A (d : dict A) k v k', dget k' (dset k v d) = if k' =? k then Some v else dget k' d.
Proof.
  induction d as [|[k0 v0] t IH]; intros k v k'; cbn.
  - reflexivity.
  - destruct (String.eqb_spec k k0) as [->|N]; cbn.
    + destruct (String.eqb_spec k' k0); reflexivity.
    + rewrite IH. destruct (String.eqb_spec k' k0) as [->|N']; [|reflexivity].
      destruct (String.eqb_spec k0 k); [congruence|reflexivity].
Qed.

Lemma dget_fold : forall A (l d : dict A) k, dget k (dmerge d l) =
  match dget k (rev l) with Some v => Some v | None => dget k d end.
Proof.
  intros A l. induction l as [|[k0 v0] t IH] using rev_ind; intros d k; [reflexivity|].
  unfold dmerge in *. rewrite fold_left_app. cbn [fold_left fst snd]. rewrite dget_dset, IH, rev_app_distr. cbn [rev app dget].
  destruct (k =? k0); reflexivity.
Qed.

(** A list of pairs with one value for every key. *)
Definition functional {A} (d : dict A) : Prop := forall k u u', In (k, u) d -> In (k, u') d -> u = u'.

Lemma dget_in : forall A (d : dict A), functional d -> forall k u, dget k d = Some u <-> In (k, u) d.
Proof.
  induction d as [|[k0 v0] t IH]; intros F k u; cbn [dget In].
  - split; [discriminate|intros []].
  - assert (Ft : functional t) by (intros a x y X Y; apply (F a); right; assumption).
    destruct (String.eqb_spec k k0) as [->|N].
    + split; [injection 1 as ->; left; reflexivity|]. intro H. f_equal. apply (F k0); [left; reflexivity|exact H].
    + rewrite (IH Ft). split; [intro H; right; exact H|]. intros [E|H]; [congruence|exact H].
Qed.

Lemma functional_rev : forall A (d : dict A), functional d -> functional (rev d).
Proof. intros A d F k u u' H H'. apply (F k); apply in_rev; assumption. Qed.

Lemma in_dset : forall A (d : dict A) k v k' v', In (k', v') (dset k v d) -> (k' = k /\ v' = v) \/ In (k', v') d.
Proof.
  induction d as [|[k0 v0] t IH]; intros k v k' v' H; cbn in H.
  - destruct H as [[= -> ->]|[]]. left. auto.
  - destruct (String.eqb_spec k k0) as [->|N].
    + destruct H as [[= -> ->]|H]; [left; auto|right; right; exact H].
    + destruct H as [[= -> ->]|H]; [right; left; reflexivity|]. apply IH in H. destruct H; [left|right; right]; auto.
Qed.

Lemma in_dmerge : forall A (l d : dict A) k v, In (k, v) (dmerge d l) -> In (k, v) d \/ In (k, v) l.
Proof.
  intros A l. induction l as [|[k0 v0] t IH]; intros d k v H; [left; exact H|].
  unfold dmerge in *. cbn [fold_left fst snd] in H. apply IH in H. destruct H as [H|H]; [|right; right; exact H].
  apply in_dset in H. destruct H as [(-> & ->)|H]; [right; left; reflexivity|left; exact H].
Qed.

Lemma in_dmerge_functional : forall A (l : dict A), functional l -> forall k v, In (k, v) (dmerge [] l) <-> In (k, v) l.
Proof.
  intros A l F k v. split.
  - intro H. apply in_dmerge in H. destruct H as [[]|H]. exact H.
  - intro H. assert (G : functional (dmerge [] l)).
    { intros a x y X Y. apply in_dmerge in X. apply in_dmerge in Y. destruct X as [[]|X], Y as [[]|Y]. exact (F a x y X Y). }
    apply dget_in; [exact G|]. rewrite dget_fold. cbn [dget].
    assert (E : dget k (rev l) = Some v).
    { apply dget_in; [apply functional_rev; exact F|]. rewrite <- in_rev. exact H. }
    rewrite E. reflexivity.
Qed.

Lemma append_length : forall s t, String.length (s ++ t) = String.length s + String.length t.
Proof. induction s as [|c s IH]; intro t; cbn; [reflexivity|]. rewrite IH. reflexivity. Qed.

Lemma append_inj_r : forall s t u, (s ++ u)%string = (t ++ u)%string -> s = t.
Proof.
  induction s as [|c s IH]; intros [|c' t] u E; cbn in E.
  - reflexivity.
  - exfalso. apply (f_equal String.length) in E. cbn in E. rewrite append_length in E. lia.
  - exfalso. apply (f_equal String.length) in E. cbn in E. rewrite append_length in E. lia.
  - injection E as -> E. f_equal. exact (IH _ _ E).
Qed.

Lemma right_functional : forall sizes shared groups d, right_names sizes shared groups d -> functional d.
Proof.
  intros sizes shared groups d R k u u' H H'. apply R in H. apply R in H'. destruct H as (g & _ & E & ->), H' as (g' & _ & E' & ->).
  assert (g = g') as -> by (destruct sizes; [apply (append_inj_r _ _ "_size")|]; congruence). reflexivity.
Qed.

Lemma names_right : forall sizes shared groups, right_names sizes shared groups (names_for sizes shared groups).
Proof.
  intros sizes shared groups.
  set (l := map (fun g => (if sizes then size_of g else g,
                            if shared then (if sizes then "_shared_size" else "_shared")
                            else if sizes then size_of (under g) else under g)) groups).
  assert (L : right_names sizes shared groups l).
  { intros k u. unfold l. rewrite in_map_iff. unfold stored, size_of, under.
    split; intros (g & H); exists g; [destruct H as ([= <- <-] & I)|destruct H as (I & -> & ->)];
      repeat split; auto; destruct shared, sizes; reflexivity. }
  intros k u. unfold names_for. fold l. rewrite in_dmerge_functional by exact (right_functional _ _ _ _ L). apply L.
Qed.

(** The two dictionaries together. *)
Lemma merged : forall shared groups a b name, right_names false shared groups a -> right_names true shared groups b ->
  forall u, dget name (dmerge a b) = Some u <->
    (exists g, In g groups /\ name = g ++ "_size" /\ u = stored shared g ++ "_size")
    \/ ((forall g, In g groups -> name <> g ++ "_size") /\ In name groups /\ u = stored shared name).
Proof.
  intros shared groups a b name Ra Rb u. rewrite dget_fold.
  assert (Fa := right_functional _ _ _ _ Ra). assert (Fb := right_functional _ _ _ _ Rb).
  assert (B : forall v, dget name (rev b) = Some v <-> exists g, In g groups /\ name = g ++ "_size" /\ v = stored shared g ++ "_size").
  { intro v. rewrite (dget_in _ _ (functional_rev _ _ Fb)), <- in_rev. apply Rb. }
  assert (A : dget name a = Some u <-> In name groups /\ u = stored shared name).
  { rewrite (dget_in _ _ Fa). split.
    - intro H. apply Ra in H. destruct H as (g & I & -> & ->). auto.
    - intros (I & ->). apply Ra. exists name. auto. }
  destruct (dget name (rev b)) as [v|] eqn:E.
  - pose proof (proj1 (B v) eq_refl) as (g & I & N & V). split.
    + injection 1 as <-. left. exists g. auto.
    + intros [(g' & I' & N' & ->)|(H & _)]; [|exfalso; exact (H g I N)]. apply B. exists g'. auto.
  - rewrite A. split.
    + intros (I & ->). right. repeat split; auto. intros g J X.
      assert (Y : None = Some (stored shared g ++ "_size")) by (apply B; exists g; auto). discriminate Y.
    + intros [(g & I & N & ->)|(_ & I & ->)]; [|auto].
      assert (Y : None = Some (stored shared g ++ "_size")) by (apply B; exists g; auto). discriminate Y.
Qed.

(** * Lookups *)

Lemma look_plain : forall n o name v, name <> "group_mapping" -> name <> "group_size_mapping" ->
  dget name o = Some v -> look (S n) name o = (o, Ok v).
Proof.
  intros n o name v A B H. cbn [look]. unfold access.
  apply String.eqb_neq in A. apply String.eqb_neq in B. rewrite A, B, H. reflexivity.
Qed.

(** Only the dictionaries of names may have been added. *)
Definition same_but_names (o o' : object) : Prop :=
  forall k, (forall sizes, k <> cache_of sizes) -> dget k o' = dget k o.

Lemma property_gives : forall n sizes shared groups o, 2 <= n -> made shared groups o ->
  exists o' d, look (S n) (property_of sizes) o = (o', Ok (VNames d)) /\ right_names sizes shared groups d
    /\ made shared groups o' /\ same_but_names o o'.
Proof.
  intros n sizes shared groups o L (M & C).
  assert (K : forall o0 d n0, 1 <= n0 -> dget (cache_of sizes) o0 = Some (VNames d) ->
    look (S n0) (property_of sizes) o0 = (o0, Ok (VNames d))).
  { intros o0 d n0 L0 E. destruct n0 as [|n0]; [lia|]. remember (S n0) as m. cbn [look]. unfold access, mapping. subst m.
    destruct sizes; cbn [property_of cache_of String.eqb Ascii.eqb Bool.eqb] in *;
      (rewrite (look_plain n0 o0 _ (VNames d)); [reflexivity|discriminate|discriminate|exact E]). }
  destruct (C sizes) as [E|(d & E & R)].
  - apply dget_holds in E. apply dget_holds in M.
    set (o' := dset (cache_of sizes) (VNames (names_for sizes shared groups)) o).
    exists o', (names_for sizes shared groups).
    assert (S1 : same_but_names o o').
    { intros k H. unfold o'. rewrite dget_dset. destruct (String.eqb_spec k (cache_of sizes)); [|reflexivity].
      exfalso. exact (H sizes e). }
    split; [|split; [apply names_right|split; [|exact S1]]].
    + destruct n as [|[|n]]; try lia. remember (S (S n)) as m. cbn [look]. unfold access, mapping. subst m.
      assert (E2 : look (S (S n)) (cache_of sizes) o = (o, Ok VNone)).
      { apply look_plain; [destruct sizes; discriminate|destruct sizes; discriminate|exact E]. }
      assert (M2 : look (S (S n)) "metadata" o = (o, Ok (VMeta shared groups))).
      { apply look_plain; [discriminate|discriminate|exact M]. }
      assert (P2 : look (S (S n)) (property_of sizes) o' = (o', Ok (VNames (names_for sizes shared groups)))).
      { apply K; [lia|]. unfold o'. rewrite dget_dset, String.eqb_refl. reflexivity. }
      destruct sizes; cbn [property_of String.eqb Ascii.eqb Bool.eqb] in *; rewrite E2, M2; fold o'; rewrite P2; reflexivity.
    + split.
      * apply dget_holds. rewrite S1; [exact M|]. intros [|]; discriminate.
      * intro s2. destruct (Bool.bool_dec s2 sizes) as [->|N].
        -- right. exists (names_for sizes shared groups). split; [|apply names_right].
           apply dget_holds. unfold o'. rewrite dget_dset, String.eqb_refl. reflexivity.
        -- assert (X : dget (cache_of s2) o' = dget (cache_of s2) o).
           { unfold o'. rewrite dget_dset. destruct s2, sizes; try congruence; reflexivity. }
           destruct (C s2) as [H|(d2 & H & R2)]; [left|right; exists d2; split; [|exact R2]];
             apply dget_holds; rewrite X; apply dget_holds; exact H.
  - exists o, d. split; [apply K; [lia|apply dget_holds; exact E]|]. split; [exact R|]. split; [split; assumption|].
    intros k _. reflexivity.
Qed.

Lemma fallback_gives : forall n name shared groups o, 3 <= n -> made shared groups o ->
  exists o' a b, right_names false shared groups a /\ right_names true shared groups b
    /\ made shared groups o' /\ same_but_names o o'
    /\ fallback (look n) name o = match dget name (dmerge a b) with
                                  | None => (o', Err AttributeError)
                                  | Some u => look n u o'
                                  end.
Proof.
  intros n name shared groups o L M. destruct n as [|n]; [lia|].
  destruct (property_gives n false shared groups o ltac:(lia) M) as (o1 & a & E1 & R1 & M1 & S1).
  destruct (property_gives n true shared groups o1 ltac:(lia) M1) as (o2 & b & E2 & R2 & M2 & S2).
  cbn [property_of] in *.
  exists o2, a, b. repeat split; auto; try (apply R1 || apply R2 || apply M2).
  - intros k H. rewrite S2, S1; auto.
  - unfold fallback. rewrite E1, E2. reflexivity.
Qed.

(** * C99: attributes *)

(** The names that are not the properties of the class. *)
Definition ordinary (name : string) : Prop := name <> "group_mapping" /\ name <> "group_size_mapping".

Lemma look_missing : forall n o name, ordinary name -> absent o name -> look (S n) name o = fallback (look n) name o.
Proof.
  intros n o name (A & B) H. cbn [look]. unfold access. apply String.eqb_neq in A. apply String.eqb_neq in B. rewrite A, B.
  apply dget_absent in H. rewrite H. reflexivity.
Qed.

(** What the object has itself is found first, and nothing changes. *)
Theorem C99_own_attributes : forall n o name v, ordinary name -> holds o name v -> look (S n) name o = (o, Ok v).
Proof. intros n o name v (A & B) H. apply look_plain; auto. apply dget_holds. exact H. Qed.

(** The name of a group, or that of its size, gives the mask or the number stored for it:
    the shared one if there is one. *)
Theorem C99_groups : forall n o g v shared groups, 4 <= n -> made shared groups o -> In g groups ->
  (ordinary g -> absent o g -> (forall g', In g' groups -> g <> g' ++ "_size") ->
     (forall sizes, stored shared g <> cache_of sizes) -> holds o (stored shared g) v -> ordinary (stored shared g) ->
     exists o', look n g o = (o', Ok v) /\ made shared groups o' /\ same_but_names o o')
  /\ (ordinary (g ++ "_size") -> absent o (g ++ "_size") ->
     holds o (stored shared g ++ "_size") v ->
     exists o', look n (g ++ "_size") o = (o', Ok v) /\ made shared groups o' /\ same_but_names o o').
Proof.
  assert (G : forall n o name u v shared groups, 4 <= n -> made shared groups o -> ordinary name -> absent o name ->
    (exists g, In g groups /\ name = g ++ "_size" /\ u = stored shared g ++ "_size")
    \/ ((forall g, In g groups -> name <> g ++ "_size") /\ In name groups /\ u = stored shared name) ->
    (forall sizes, u <> cache_of sizes) -> ordinary u -> holds o u v ->
    exists o', look n name o = (o', Ok v) /\ made shared groups o' /\ same_but_names o o').
  { intros n o name u v shared groups L M O A H C Ou V. destruct n as [|n]; [lia|]. rewrite look_missing by assumption.
    destruct (fallback_gives n name shared groups o ltac:(lia) M) as (o' & a & b & Ra & Rb & M' & S & ->).
    rewrite (proj2 (merged shared groups a b name Ra Rb u) H). exists o'. split; [|auto]. destruct n as [|n]; [lia|].
    apply C99_own_attributes; [exact Ou|]. apply dget_holds. rewrite S by exact C. apply dget_holds. exact V. }
  assert (T : forall s, s ++ "_size" <> "group_mapping" /\ s ++ "_size" <> "group_size_mapping"
                        /\ forall sizes, s ++ "_size" <> cache_of sizes).
  { assert (Q : forall s t k, k < String.length t -> String.get k t <> String.get k s -> s <> t) by (intros s t k _ H ->; congruence).
    assert (P : forall s t c, s ++ String c "size" = t -> exists s', t = s' ++ "size").
    { intros s t c <-. exists (s ++ String c ""). induction s as [|x s IH]; cbn; [reflexivity|]. rewrite IH. reflexivity. }
    assert (W : forall t, (exists s', t = s' ++ "size") -> String.substring (String.length t - 4) 4 t = "size").
    { intros t (s' & ->). rewrite append_length. cbn [String.length]. replace (String.length s' + 4 - 4) with (String.length s') by lia.
      induction s' as [|x s' IH]; [reflexivity|exact IH]. }
    intro s. repeat split; [| |intros [|]]; intro E; apply P in E; apply W in E; discriminate E. }
  intros n o g v shared groups L M I. split.
  - intros O A N C V Os. apply (G n o g (stored shared g)); auto.
  - intros O A V. destruct (T (stored shared g)) as (T1 & T2 & T3).
    apply (G n o _ (stored shared g ++ "_size")); auto; [|split; assumption]. left. exists g. auto.
Qed.

(** Any other name is an AttributeError, so [hasattr] is False and [getattr] gives its
    default. *)
Theorem C99_others : forall n o name shared groups, 4 <= n -> made shared groups o -> ordinary name -> absent o name ->
  ~ In name groups -> (forall g, In g groups -> name <> g ++ "_size") ->
  exists o', look n name o = (o', Err AttributeError) /\ hasattr n name o = (o', Ok false)
    /\ made shared groups o' /\ same_but_names o o'.
Proof.
  intros n o name shared groups L M O A G G'. destruct n as [|n]; [lia|].
  destruct (fallback_gives n name shared groups o ltac:(lia) M) as (o' & a & b & Ra & Rb & M' & S & E).
  exists o'. unfold hasattr. rewrite look_missing by assumption. rewrite E.
  destruct (dget name (dmerge a b)) as [u|] eqn:D; [|auto]. exfalso. apply (merged shared groups a b name Ra Rb) in D.
  destruct D as [(g & I & N & _)|(_ & I & _)]; [exact (G' g I N)|exact (G I)].
Qed.

(** * C99: copies *)

(** An object without attributes never finds any: looking for the names of the groups looks
    for the metadata, and that again for the names of the groups, up to any recursion limit. *)
Theorem C99_empty_recurses : forall n name, look n name [] = ([], Err RuntimeError).
Proof.
  induction n as [|n IH]; intro name; [reflexivity|]. cbn [look]. unfold access, mapping, fallback. rewrite !IH.
  destruct (name =? "group_mapping"); [reflexivity|]. destruct (name =? "group_size_mapping"); reflexivity.
Qed.

(** C99 (refuted: a mask can be copied): copying a mask, or loading a pickled one, fails,
    whatever the mask and whatever the recursion limit. *)
Theorem C99_copy_refuted : forall n state, rebuild n state = Err RuntimeError.
Proof. intros n state. unfold rebuild, hasattr. rewrite C99_empty_recurses. reflexivity. Qed.

(** The same for a mask that has lost its metadata only: what it has not itself is not found. *)
Theorem C99_no_metadata : forall n o name, (forall sizes, absent o (cache_of sizes)) -> absent o "metadata" -> absent o name ->
  look n name o = (o, Err RuntimeError).
Proof.
  intros n o name C M A.
  assert (H : forall n, look n "group_mapping" o = (o, Err RuntimeError)
            /\ forall k, absent o k -> look n k o = (o, Err RuntimeError)).
  { clear n A name. induction n as [|n (I1 & I2)]; [split; reflexivity|].
    assert (P : look (S n) "group_mapping" o = (o, Err RuntimeError)).
    { cbn [look]. unfold access, mapping. rewrite (I2 _ (C false)). reflexivity. }
    split; [exact P|]. intros k A. destruct (string_dec k "group_mapping") as [->|N]; [exact P|].
    cbn [look]. unfold access, mapping, fallback. rewrite I1, (I2 _ (C true)). apply String.eqb_neq in N. rewrite N.
    destruct (k =? "group_size_mapping"); [reflexivity|]. apply dget_absent in A. rewrite A. reflexivity. }
  apply H. exact A.
Qed.

(** * Examples *)

(** A mask of a snapshot with gas and stars, before any name was looked up. *)
Definition fresh : object :=
  [("metadata", VMeta false ["gas"; "stars"]); ("_group_mapping", VNone); ("_group_size_mapping", VNone);
   ("_gas", VOther 1); ("_gas_size", VOther 2); ("_stars", VOther 3); ("_stars_size", VOther 4)].

Example C99_fresh : made false ["gas"; "stars"] fresh /\ absent fresh "gas" /\ ordinary "gas"
  /\ (forall sizes, stored false "gas" <> cache_of sizes) /\ holds fresh (stored false "gas") (VOther 1)
  /\ snd (look 4 "gas" fresh) = Ok (VOther 1) /\ snd (look 4 "stars_size" fresh) = Ok (VOther 4)
  /\ snd (look 4 "dark_matter" fresh) = Err AttributeError /\ rebuild 1000 fresh = Err RuntimeError.
Proof.
  split; [|split; [apply dget_absent; reflexivity|split; [split; discriminate|split; [intros [|]; discriminate|split;
    [apply dget_holds; reflexivity|repeat split; apply C99_copy_refuted]]]]].
  split; [apply dget_holds; reflexivity|]. intros [|]; left; apply dget_holds; reflexivity.
Qed.

(** A catalogue with one mask for all groups. *)
Example C99_shared :
  let o := [("metadata", VMeta true ["so"; "bound"]); ("_group_mapping", VNone); ("_group_size_mapping", VNone);
            ("_shared", VOther 1); ("_shared_size", VOther 2)] in
  snd (look 4 "so" o) = Ok (VOther 1) /\ snd (look 4 "bound" o) = Ok (VOther 1) /\ snd (look 4 "so_size" o) = Ok (VOther 2).
Proof. repeat split. Qed.

Print Assumptions C99_own_attributes.
Print Assumptions C99_groups.
Print Assumptions C99_others.
Print Assumptions C99_empty_recurses.
Print Assumptions C99_copy_refuted.
Print Assumptions C99_no_metadata.
