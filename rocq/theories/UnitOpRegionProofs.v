(** Constraints with arrays in different units are those with the arrays in one unit. *)
From Coq Require Import String List ZArith QArith Bool Reals Lra Lia.
From Verif Require Import Base BaseLemmas MaskModel CosmoModel CtorModel RegionModel UnitOpModel UnitOpSpec UnitOpProofs.
Import ListNotations.
Open Scope R_scope.

Section Units.
Variable D : Type.
Variable deqb : D -> D -> bool.
Variable done : D.
Variable dmul : D -> D -> D.
Variable dpow : D -> R -> D.
Variable d : D.
Hypothesis refl : deqb d d = true.
Hypothesis unit_l : dmul done d = d.
Hypothesis unit_r : dmul d (dpow done (- 1)) = d.
Notation qarr := (qarr D).
Notation q_binop := (q_binop D deqb done dmul dpow). Notation q_unop := (q_unop D done dmul dpow). Notation q_cmp := (q_cmp D deqb).
Notation hd := (has_dims d).

Definition good (r : res qarr) (s : res carr) : Prop :=
  match r with
  | Ok x => hd x /\ s = Ok (bare x)
  | Err e => s = Err e
  end.

Lemma hd_eq (x y : qarr) : hd x -> hd y -> deqb (dims (q_unit x)) (dims (q_unit y)) = true.
Proof. intros [_ ->] [_ ->]. exact refl. Qed.

Lemma same_good (r : res qarr) s : same D r s -> (forall x, r = Ok x -> dims (q_unit x) = d) -> good r s.
Proof. destruct r as [x|e]; cbn; [|auto]. intros [P ->] H. split; [split; [exact P|now apply H]|reflexivity]. Qed.

Lemma binop_unit o x y r : q_binop o x y = Ok r -> exists v v' a, combine_units D deqb dmul dpow o (unit_of D done x) v (unit_of D done y) v' = Ok a /\ q_unit r = snd a.
Proof.
  unfold UnitOpModel.q_binop. destruct (prepare _ _) as [p|]; [|discriminate]. cbn [bind]. destruct (p_args p) as [|x' [|y' [|]]]; try discriminate.
  destruct (combine_units D deqb dmul dpow o (unit_of D done x) (op_vals x') (unit_of D done y) (op_vals y')) as [a|] eqn:E; [|discriminate]. cbn [bind].
  destruct (bhandler _ _ _); [|discriminate]. cbn [bind]. destruct (broadcast _ _ _); [|discriminate]. cbn [bind]. intros [= <-]. exists (op_vals x'), (op_vals y'), a. auto.
Qed.

Lemma sum_good o x y : sums o = true -> hd x -> hd y -> good (q_binop o (QArr x) (QArr y)) (binop o (OArr (bare x)) (OArr (bare y))).
Proof.
  intros S X Y. apply same_good.
  - apply (q_binop_accepted D deqb done dmul dpow o (QArr x) (QArr y)); [right; now apply hd_eq|apply X|apply Y].
  - intros r E. destruct (binop_unit _ _ _ _ E) as (v & v' & a & A & ->). assert (A' : align D deqb (q_unit x) v (q_unit y) v' = Ok a) by (destruct o; try discriminate; exact A).
    rewrite (align_dims D deqb _ _ _ _ _ A'); [apply X|]. destruct X as [_ ->], Y as [_ ->]. reflexivity.
Qed.

Lemma mul_good v x : hd x -> good (q_binop Bmul (QPlain v) (QArr x)) (binop Bmul (OPlain v) (OArr (bare x))).
Proof.
  intros X. apply same_good.
  - apply (q_binop_accepted D deqb done dmul dpow Bmul (QPlain v) (QArr x)); [now left|exact I|apply X].
  - intros r E. destruct (binop_unit _ _ _ _ E) as (w & w' & a & A & ->). injection A as <-. cbn [snd dims unit_of]. destruct X as [_ ->]. exact unit_l.
Qed.

Lemma div_good v x : hd x -> good (q_binop Bdiv (QArr x) (QPlain v)) (binop Bdiv (OArr (bare x)) (OPlain v)).
Proof.
  intros X. apply same_good.
  - apply (q_binop_accepted D deqb done dmul dpow Bdiv (QArr x) (QPlain v)); [now left|apply X|exact I].
  - intros r E. destruct (binop_unit _ _ _ _ E) as (w & w' & a & A & ->). injection A as <-. cbn [snd dims unit_of]. destruct X as [_ ->]. exact unit_r.
Qed.

Lemma unop_good o x : o = Uneg \/ o = Uabs -> hd x -> good (q_unop o (QArr x)) (unop o (OArr (bare x))).
Proof.
  intros O X. apply same_good.
  - apply (q_unop_same D done dmul dpow o (QArr x)). apply X.
  - intros r. unfold UnitOpModel.q_unop. destruct (unop o _); [|discriminate]. cbn [bind]. intros [= <-]. cbn [q_unit unit_of]. destruct O as [-> | ->]; apply X.
Qed.

Lemma cmp_good o x y : hd x -> hd y -> q_cmp o x y = cmpop o (OArr (bare x)) (OArr (bare y)).
Proof. intros X Y. apply (q_cmp_accepted D deqb done); [now apply hd_eq|apply X|apply Y]. Qed.

(** * Lists *)

Lemma to_unit_worth (u : unt D) : proper (mkq u (mkarr [] None None false CNone)) -> dims u = d -> forall (l : list qarr) args, Forall hd l -> length args = length l -> Forall (fun o => is_plain o = false) args ->
  exists v, to_unit D deqb u (combine (map q_unit l) (map op_vals args)) = Ok v /\
            flat_map op_vals (map sc (combine (map (fun x => size (q_unit x)) l) args)) = map (Rmult (size u)) v.
Proof.
  intros P U l. induction l as [|x l IH]; intros [|a args] H L Q; try discriminate; [exists []; auto|].
  inversion H as [|? ? X H']; subst. inversion Q as [|? ? A Q']; subst. cbn [map combine to_unit flat_map]. destruct X as [Px Dx]. rewrite Dx, refl.
  destruct (IH args H' ltac:(now injection L) Q') as (v & -> & E). cbn [bind]. eexists; split; [reflexivity|]. rewrite E, map_app, map_map. f_equal.
  unfold sc. cbn [fst snd]. rewrite vals_sc by congruence. apply map_ext. intros w. change (0 < size u) in P. field. lra.
Qed.

Lemma list_args l : map OArr (map bare l) = map sc (map (fun x : qarr => (size (q_unit x), OArr (q_arr x))) l).
Proof. rewrite !map_map. reflexivity. Qed.

Lemma q_list_good l : l <> [] -> Forall hd l -> good (q_list D deqb l) (array_of (InList (map OArr (map bare l)))).
Proof.
  intros N H. destruct l as [|x l]; [contradiction|]. clear N. set (L := x :: l) in *.   assert (E0 : q_list D deqb L = do p <- prepare true (map (fun x0 => OArr (q_arr x0)) L);
      do r <- array_of (InList (map (fun x0 => OArr (q_arr x0)) L));
      do v <- to_unit D deqb (q_unit x) (combine (map q_unit L) (map op_vals (p_args p)));
      Ok (mkq (q_unit x) (mkarr v (acf r) (acm r) (avt r) (acomp r)))) by reflexivity. rewrite E0. clear E0.
  unfold array_of, new_array. cbn [kw0 k_bypass]. unfold from_list. cbn [kw0 k_cm k_cf k_sf k_se k_vt k_comp].
  pose proof (prepare_scale true (map (fun x : qarr => (size (q_unit x), OArr (q_arr x))) L)) as S. rewrite <- list_args in S. rewrite !map_map in S. cbn [fst snd] in S.
  rewrite (map_map bare OArr). rewrite S. clear S.
  destruct (prepare true (map (fun x0 : qarr => OArr (q_arr x0)) L)) as [p|e] eqn:E; [|reflexivity]. cbn [bind rmap p_args p_cfs p_cm p_vt p_comp].
  pose proof (prepare_length _ _ _ E) as PL. rewrite map_length in PL. pose proof (prepare_plain _ _ _ E) as PP.
  assert (Q : Forall (fun o => is_plain o = false) (p_args p)).
  { rewrite map_map in PP. cbn [is_plain] in PP. clear - PP. revert PP. generalize (p_args p). induction L as [|y L IH]; intros [|a args] E; try discriminate; constructor.
    - now injection E. - apply IH. now injection E. }
  inversion H as [|? ? X H']; subst. destruct (to_unit_worth (q_unit x) (proj1 X) (proj2 X) L (p_args p) H PL Q) as (v & T & W).
  rewrite T.
  cbn [parse_cf bind]. unfold L at 1 3. cbn [map]. destruct (h_preserve (p_cfs p)) as [c|e]; [|reflexivity]. cbn [bind].
  destruct (verify _ _) as [[]|e]; [|reflexivity]. cbn [bind u_arr acf acm avt acomp good]. split; [exact X|].
  unfold bare, scale. cbn [q_unit q_arr avals acf acm avt acomp]. rewrite <- W. reflexivity.
Qed.

(** * The region *)

Lemma row_len_bare (r : qrow D) : row_len (bare_row r) = q_row_len r.
Proof. destruct r as [|x|l]; cbn; [reflexivity| |]; now rewrite map_length. Qed.

Lemma sane_row_good (r : qrow D) b : q_row_len r <> Some 0%nat -> row_dims d r -> hd b -> good (q_sane_row D deqb done dmul dpow r b) (sane_row (bare_row r) (bare b)).
Proof.
  intros N R B. destruct r as [|x|l]; cbn [q_sane_row bare_row sane_row].
  - now apply mul_good.
  - unfold array_of, new_array. cbn [kw0 k_bypass]. unfold from_cosmo. cbn [u_arr bare scale acf avals acm avt acomp kw0 k_sf k_se k_cm k_vt k_comp u_unit].
    destruct (acf (q_arr x)) as [c|] eqn:C; [|reflexivity]. cbn [bind]. destruct (parse_cf _ _ _) as [c'|e]; [|reflexivity]. cbn [bind acm acf avals acomp].
    destruct (verify _ _) as [[]|e]; [|reflexivity]. cbn [bind u_arr good]. split; [exact R|]. reflexivity.
  - apply q_list_good; [|exact R]. destruct l; [exfalso; apply N; reflexivity|discriminate].
Qed.

Lemma sanitize_good (qm : qmeta D) region : meta_dims d qm -> Forall (row_dims d) region -> good (q_sanitize D deqb done dmul dpow qm region) (l_sanitize (bare_meta qm) (map bare_row region)).
Proof.
  intros [B _] H. unfold q_sanitize, l_sanitize. destruct region as [|rx [|ry [|rz [|]]]]; try reflexivity. cbn [map].
  replace (forallb _ [bare_row rx; bare_row ry; bare_row rz]) with (forallb (fun r => match q_row_len r with Some n => Nat.eqb n 2 | None => true end) [rx; ry; rz])
    by (cbn [forallb]; now rewrite !row_len_bare).
  destruct (forallb _ _) eqn:F; [|reflexivity]. cbn [forallb] in F.
  assert (N : forall r : qrow D, (match q_row_len r with Some n => Nat.eqb n 2 | None => true end) = true -> q_row_len r <> Some 0%nat) by (intros r E E'; rewrite E' in E; discriminate).
  apply andb_prop in F. destruct F as [Fx F]. apply andb_prop in F. destruct F as [Fy F]. apply andb_prop in F. destruct F as [Fz _].
  inversion H as [|? ? Hx H1]; subst. inversion H1 as [|? ? Hy H2]; subst. inversion H2 as [|? ? Hz _]; subst.
  pose proof (sane_row_good rx (qm_box qm AX) (N _ Fx) Hx (B AX)) as Gx. cbn [bare_meta lm_box]. destruct (q_sane_row D deqb done dmul dpow rx (qm_box qm AX)) as [x|e]; cbn [good] in Gx; [|now rewrite Gx].
  destruct Gx as [Dx ->]. cbn [bind].
  pose proof (sane_row_good ry (qm_box qm AY) (N _ Fy) Hy (B AY)) as Gy. destruct (q_sane_row D deqb done dmul dpow ry (qm_box qm AY)) as [y|e]; cbn [good] in Gy; [|now rewrite Gy].
  destruct Gy as [Dy ->]. cbn [bind].
  pose proof (sane_row_good rz (qm_box qm AZ) (N _ Fz) Hz (B AZ)) as Gz. destruct (q_sane_row D deqb done dmul dpow rz (qm_box qm AZ)) as [z|e]; cbn [good] in Gz; [|now rewrite Gz].
  destruct Gz as [Dz ->]. cbn [bind]. apply (q_list_good [x; y; z]); [discriminate|auto].
Qed.

(** * Cell masks *)

Lemma item_good x i : hd x -> good (q_item x i) (item (bare x) i).
Proof.
  intros X. unfold q_item, item. cbn [bare scale avals]. rewrite nth_error_map. destruct (nth_error (avals (q_arr x)) i) as [v|]; [|reflexivity]. cbn [option_map bind good].
  split; [exact X|reflexivity].
Qed.

Lemma compress_map {A B} (f : A -> B) m : forall l, compress m (map f l) = map f (compress m l).
Proof. induction m as [|[|] m IH]; intros [|x l]; try reflexivity; cbn [map compress]; [now rewrite IH|apply IH]. Qed.

Lemma take_bare m (x : qarr) : bare (q_take m x) = take_mask m (bare x).
Proof. unfold q_take, take_mask, bare, scale. cbn [q_unit q_arr avals acf acm avt acomp]. now rewrite compress_map. Qed.


Lemma out_good box lower upper : hd box -> hd lower -> hd upper -> q_out D deqb done dmul dpow box lower upper = l_out (bare box) (bare lower) (bare upper).
Proof.
  intros B L U. unfold q_out, l_out.
  pose proof (unop_good Uneg box (or_introl eq_refl) B) as G1. destruct (q_unop Uneg (QArr box)) as [neg|e]; cbn [good] in G1; [destruct G1 as [Dn G1]|]; rewrite G1; [|reflexivity]. cbn [bind].
  pose proof (div_good [2] neg Dn) as G2. destruct (q_binop Bdiv (QArr neg) (QPlain [2])) as [low|e]; cbn [good] in G2; [destruct G2 as [Dl G2]|]; rewrite G2; [|reflexivity]. cbn [bind].
  pose proof (mul_good [3] box B) as G3. destruct (q_binop Bmul (QPlain [3]) (QArr box)) as [three|e]; cbn [good] in G3; [destruct G3 as [Dt G3]|]; rewrite G3; [|reflexivity]. cbn [bind].
  pose proof (div_good [2] three Dt) as G4. destruct (q_binop Bdiv (QArr three) (QPlain [2])) as [high|e]; cbn [good] in G4; [destruct G4 as [Dh G4]|]; rewrite G4; [|reflexivity]. cbn [bind].
  rewrite !cmp_good by assumption. reflexivity.
Qed.

Definition good_interval (r : res (option (qarr * qarr))) (s : res (option (carr * carr))) : Prop :=
  match r with
  | Ok None => s = Ok None
  | Ok (Some (x, y)) => hd x /\ hd y /\ s = Ok (Some (bare x, bare y))
  | Err e => s = Err e
  end.

Lemma interval_good box lower upper : hd box -> hd lower -> hd upper -> good_interval (q_interval D deqb done dmul dpow box lower upper) (l_interval (bare box) (bare lower) (bare upper)).
Proof.
  intros B L U. unfold q_interval, l_interval.
  pose proof (sum_good Bsub upper lower eq_refl U L) as G1. destruct (q_binop Bsub (QArr upper) (QArr lower)) as [diff|e]; cbn [good] in G1; [destruct G1 as [Dd G1]|]; rewrite G1; [|reflexivity]. cbn [bind].
  pose proof (unop_good Uabs diff (or_intror eq_refl) Dd) as G2. destruct (q_unop Uabs (QArr diff)) as [sz|e]; cbn [good] in G2; [destruct G2 as [Ds G2]|]; rewrite G2; [|reflexivity]. cbn [bind].
  rewrite !cmp_good by assumption. destruct (truth (cmpop Cgt (OArr (bare sz)) (OArr (bare box)))) as [[|]|e]; [reflexivity| |reflexivity]. cbn [bind].
  destruct (truth (cmpop Clt (OArr (bare upper)) (OArr (bare lower)))) as [[|]|e]; [| |reflexivity]; cbn [bind]; [|cbn [good_interval]; auto].
  pose proof (div_good [2] box B) as G3. destruct (q_binop Bdiv (QArr box) (QPlain [2])) as [half|e]; cbn [good] in G3; [destruct G3 as [Dh G3]|]; rewrite G3; [|reflexivity]. cbn [bind].
  rewrite !cmp_good by assumption. destruct (truth (cmpop Cgt (OArr (bare lower)) (OArr (bare half)))) as [[|]|e]; [| |reflexivity]; cbn [bind].
  - pose proof (sum_good Bsub lower box eq_refl L B) as G4. destruct (q_binop Bsub (QArr lower) (QArr box)) as [l|e]; cbn [good] in G4; [destruct G4 as [D4 G4]|]; rewrite G4; [|reflexivity]. cbn [bind good_interval]. auto.
  - destruct (truth (cmpop Clt (OArr (bare upper)) (OArr (bare half)))) as [[|]|e]; [| |reflexivity]; cbn [bind good_interval]; [|auto].
    pose proof (sum_good Badd upper box eq_refl U B) as G4. destruct (q_binop Badd (QArr upper) (QArr box)) as [u|e]; cbn [good] in G4; [destruct G4 as [D4 G4]|]; rewrite G4; [|reflexivity]. cbn [bind good_interval]. auto.
Qed.

Lemma copy_good box lower upper mn mx shift : hd box -> hd lower -> hd upper -> hd mn -> hd mx ->
  q_copy D deqb done dmul dpow box lower upper mn mx shift = l_copy (bare box) (bare lower) (bare upper) (bare mn) (bare mx) shift.
Proof.
  intros B L U N X. unfold q_copy, l_copy.
  pose proof (mul_good [IZR shift] box B) as G1. destruct (q_binop Bmul (QPlain [IZR shift]) (QArr box)) as [move|e]; cbn [good] in G1; [destruct G1 as [D1 G1]|]; rewrite G1; [|reflexivity]. cbn [bind].
  pose proof (sum_good Badd mx move eq_refl X D1) as G2. destruct (q_binop Badd (QArr mx) (QArr move)) as [top|e]; cbn [good] in G2; [destruct G2 as [D2 G2]|]; rewrite G2; [|reflexivity]. cbn [bind].
  rewrite cmp_good by assumption. destruct (cmpop Cgt (OArr (bare top)) (OArr (bare lower))) as [above|e]; [|reflexivity]. cbn [bind].
  pose proof (sum_good Badd mn move eq_refl N D1) as G3. destruct (q_binop Badd (QArr mn) (QArr move)) as [bottom|e]; cbn [good] in G3; [destruct G3 as [D3 G3]|]; rewrite G3; [|reflexivity]. cbn [bind].
  now rewrite cmp_good by assumption.
Qed.

Definition key_dims (k : qkey D) : Prop := forall a, hd (qk_min k a) /\ hd (qk_max k a).

Lemma this_good box lower upper a k m : hd box -> hd lower -> hd upper -> key_dims k ->
  q_this D deqb done dmul dpow box lower upper a k m = l_this (bare box) (bare lower) (bare upper) a (bare_key k) m.
Proof.
  intros B L U K. destruct (K a) as [Kn Kx]. unfold q_this, l_this. cbn [bare_key lk_min lk_max]. rewrite <- !take_bare. rewrite !copy_good by assumption. reflexivity.
Qed.

Lemma axes_good (qm : qmeta D) restrict : meta_dims d qm -> hd restrict -> forall todo m, q_axes D deqb done dmul dpow qm restrict todo m = l_axes (bare_meta qm) (bare restrict) todo m.
Proof.
  intros [B K] R todo. induction todo as [|[a i] todo IH]; intros m; [reflexivity|]. cbn [q_axes l_axes].
  pose proof (item_good restrict (2 * i) R) as G1. destruct (q_item restrict (2 * i)) as [lower|e]; cbn [good] in G1; [destruct G1 as [D1 G1]|]; rewrite G1; [|reflexivity]. cbn [bind].
  pose proof (item_good restrict (2 * i + 1) R) as G2. destruct (q_item restrict (2 * i + 1)) as [upper|e]; cbn [good] in G2; [destruct G2 as [D2 G2]|]; rewrite G2; [|reflexivity]. cbn [bind bare_meta lm_box lm_keys].
  rewrite out_good by auto. destruct (l_out _ _ _) as [[|]|e]; [reflexivity| |reflexivity]. cbn [bind].
  pose proof (interval_good (qm_box qm a) lower upper (B a) D1 D2) as G3. destruct (q_interval D deqb done dmul dpow (qm_box qm a) lower upper) as [[[lo up]|]|e]; cbn [good_interval] in G3.
  - destruct G3 as (D3 & D4 & ->). cbn [bind].
    replace (map (fun km => q_this D deqb done dmul dpow (qm_box qm a) lo up a (fst km) (snd km)) (combine (qm_keys qm) m))
      with (map (fun km => l_this (bare (qm_box qm a)) (bare lo) (bare up) a (fst km) (snd km)) (combine (map bare_key (qm_keys qm)) m)).
    2:{ clear - K B D3 D4 refl unit_l unit_r. revert m. induction (qm_keys qm) as [|k ks IHk]; intros [|c m]; try reflexivity. inversion K as [|? ? Kk K']; subst.
        cbn [map combine fst snd]. rewrite (IHk K'). f_equal. symmetry. now apply this_good. }
    destruct (all_ok _) as [m'|e]; [|reflexivity]. cbn [bind]. apply IH.
  - rewrite G3. cbn [bind]. apply IH.
  - rewrite G3. reflexivity.
Qed.

Lemma generate_good (qm : qmeta D) restrict : meta_dims d qm -> hd restrict -> q_generate D deqb done dmul dpow qm restrict = l_generate (bare_meta qm) (bare restrict).
Proof.
  intros M R. unfold q_generate, l_generate. rewrite axes_good by assumption. f_equal. cbn [bare_meta lm_keys]. rewrite map_map. apply map_ext. intros k.
  cbn [bare_key lk_min bare scale avals]. now rewrite map_length.
Qed.

Theorem spatial_same mm (qm : qmeta D) region union st : meta_dims d qm -> Forall (row_dims d) region ->
  q_constrain_spatial D deqb done dmul dpow mm qm region union st = l_constrain_spatial mm (bare_meta qm) (map bare_row region) union st.
Proof.
  intros M R. unfold q_constrain_spatial, l_constrain_spatial. pose proof (sanitize_good qm region M R) as G.
  destruct (q_sanitize D deqb done dmul dpow qm region) as [restrict|e]; cbn [good] in G; [destruct G as [Dr G]|]; rewrite G; [|reflexivity].
  rewrite !generate_good by assumption. reflexivity.
Qed.

(** * Properties *)

Theorem property_same mm key values (u : unt D) c cm lower upper st : 0 < size u -> dims u = d -> hd lower -> hd upper ->
  q_constrain_property D deqb mm key values u c cm lower upper st = l_constrain_property mm key (option_map (map (Rmult (size u))) values) c cm (bare lower) (bare upper) st.
Proof.
  intros P U L H. unfold q_constrain_property, l_constrain_property. destruct (convert_masks_to_bool mm (ms_masks st)) as [?|l]; [destruct values; reflexivity|].
  destruct values as [vals|]; [|reflexivity]. cbn [option_map]. destruct (nth_error l key) as [[current sz]|]; [|reflexivity].
  unfold new_array. cbn [k_bypass]. unfold from_numbers. cbn [k_cf k_sf k_se k_cm k_vt k_units k_comp]. destruct (parse_cf (Some c) None None) as [c'|e]; [|reflexivity]. cbn [bind].
  destruct (verify (Some cm) true) as [[]|e]; [|reflexivity]. cbn [bind u_arr]. rewrite compress_map.
  set (x := mkarr (compress current vals) (Some (or_null c')) (Some cm) true CNone).
  assert (X : hd (mkq u x)) by (split; [exact P|exact U]). rewrite !cmp_good by assumption. reflexivity.
Qed.
End Units.
