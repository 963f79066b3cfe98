(** Proofs about [extrema] and [Map_traits]. *)
From Coq Require Import List ZArith Bool Reals Lra Lia Permutation.
From Flocq Require Import Core BinarySingleNaN.
From Verif Require Import Base Flt FltFacts Extrema_Model Extrema_Spec.
Import ListNotations.
Open Scope R_scope.

(** ** Comparison operators agree with the mathematical values *)

Lemma Zltb_R a b : Z.ltb a b = Rlt_bool (IZR a) (IZR b).
Proof.
  destruct (Z.ltb_spec a b) as [H|H]; symmetry.
  - apply Rlt_bool_true. now apply IZR_lt.
  - apply Rlt_bool_false. now apply IZR_le.
Qed.
Lemma Zleb_R a b : Z.leb a b = Rle_bool (IZR a) (IZR b).
Proof.
  destruct (Z.leb_spec a b) as [H|H]; symmetry.
  - apply Rle_bool_true. now apply IZR_le.
  - apply Rle_bool_false. now apply IZR_lt.
Qed.

Lemma c_lt_spec t (a b : ct t) :
  c_lt (ct t) a b =
  match tval t a, tval t b with Some x, Some y => Rlt_bool x y | _, _ => false end.
Proof.
  destruct t; cbn; try apply Zltb_R.
  - destruct (is_nan a) eqn:Ea; [now apply flt_nan_l|].
    destruct (is_nan b) eqn:Eb; [now apply flt_nan_r|]. now apply flt_spec.
  - destruct (is_nan a) eqn:Ea; [now apply flt_nan_l|].
    destruct (is_nan b) eqn:Eb; [now apply flt_nan_r|]. now apply flt_spec.
Qed.

Lemma c_le_spec t (a b : ct t) :
  c_le (ct t) a b =
  match tval t a, tval t b with Some x, Some y => Rle_bool x y | _, _ => false end.
Proof.
  destruct t; cbn; try apply Zleb_R.
  - destruct (is_nan a) eqn:Ea; [now apply fle_nan_l|].
    destruct (is_nan b) eqn:Eb; [now apply fle_nan_r|]. now apply fle_spec.
  - destruct (is_nan a) eqn:Ea; [now apply fle_nan_l|].
    destruct (is_nan b) eqn:Eb; [now apply fle_nan_r|]. now apply fle_spec.
Qed.

Lemma c_le_val t (a b : ct t) : c_le (ct t) a b = true <-> val_le t a b.
Proof.
  rewrite c_le_spec. unfold val_le. destruct (tval t a) as [x|], (tval t b) as [y|].
  - case Rle_bool_spec; intros H; split; intros H1; try discriminate; try easy.
    + exists x, y; auto.
    + destruct H1 as (x' & y' & E1 & E2 & H2). injection E1 as <-. injection E2 as <-. lra.
  - split; [discriminate|]. intros (? & ? & ? & ? & ?); discriminate.
  - split; [discriminate|]. intros (? & ? & ? & ? & ?); discriminate.
  - split; [discriminate|]. intros (? & ? & ? & ? & ?); discriminate.
Qed.

(** ** Histories of updates *)

Lemma val_le_refl t a : not_nan t a -> val_le t a a.
Proof.
  unfold not_nan, val_le. destruct (tval t a) as [x|]; [|congruence].
  intros _. exists x, x. repeat split; lra.
Qed.

Lemma val_le_trans t a b c : val_le t a b -> val_le t b c -> val_le t a c.
Proof.
  intros (x & y & E1 & E2 & H) (y' & z & E3 & E4 & H').
  rewrite E2 in E3. injection E3 as <-. exists x, z. repeat split; auto; lra.
Qed.

Lemma c_lt_dec t a b : not_nan t a -> not_nan t b ->
  (c_lt (ct t) a b = true /\ val_le t a b) \/ (c_lt (ct t) a b = false /\ val_le t b a).
Proof.
  intros Ha Hb. rewrite c_lt_spec. unfold not_nan in *. unfold val_le.
  destruct (tval t a) as [x|]; [|congruence]. destruct (tval t b) as [y|]; [|congruence].
  case Rlt_bool_spec; intros H; [left|right]; split; auto.
  - exists x, y; repeat split; lra.
  - exists y, x; repeat split; lra.
Qed.

Definition hist t (e : extrema (ct t)) (seen : list (ct t)) : Prop :=
  (seen = [] /\ e = ex_empty) \/
  exists m M, e = Extrema (Some m) (Some M) /\ least t seen m /\ greatest t seen M.

Lemma hist_step t e seen d :
  (forall x, In x seen -> not_nan t x) -> not_nan t d ->
  hist t e seen -> hist t (ex_update e d) (seen ++ [d]).
Proof.
  intros Hs Hd [[-> ->]|(m & M & -> & [Im Lm] & [IM LM])]; right.
  - exists d, d. split; [reflexivity|]. unfold least, greatest. simpl.
    split; (split; [auto|]); intros x [<-|[]]; now apply val_le_refl.
  - unfold ex_update; cbn [e_min e_max].
    exists (if c_lt (ct t) d m then d else m), (if c_lt (ct t) M d then d else M).
    split; [f_equal; destruct (c_lt _ _ _); reflexivity|].
    split.
    + destruct (c_lt_dec t d m Hd (Hs m Im)) as [[-> H]|[-> H]].
      * split; [apply in_or_app; right; left; auto|].
        intros x Hx. apply in_app_or in Hx as [Hx|[<-|[]]].
        -- eapply val_le_trans; [exact H|auto].
        -- now apply val_le_refl.
      * split; [apply in_or_app; auto|].
        intros x Hx. apply in_app_or in Hx as [Hx|[<-|[]]]; auto.
    + destruct (c_lt_dec t M d (Hs M IM) Hd) as [[-> H]|[-> H]].
      * split; [apply in_or_app; right; left; auto|].
        intros x Hx. apply in_app_or in Hx as [Hx|[<-|[]]].
        -- eapply val_le_trans; [|exact H]. auto.
        -- now apply val_le_refl.
      * split; [apply in_or_app; auto|].
        intros x Hx. apply in_app_or in Hx as [Hx|[<-|[]]]; auto.
Qed.

Lemma hist_fold t ds : forall e seen,
  (forall x, In x (seen ++ ds) -> not_nan t x) ->
  hist t e seen -> hist t (fold_left ex_update ds e) (seen ++ ds).
Proof.
  induction ds as [|d ds IH]; intros e seen Hn H; cbn [fold_left].
  - now rewrite app_nil_r.
  - replace (seen ++ d :: ds) with ((seen ++ [d]) ++ ds) by (rewrite <- app_assoc; reflexivity).
    apply IH.
    + intros x Hx. apply Hn. rewrite <- app_assoc in Hx. exact Hx.
    + apply hist_step; auto.
      * intros x Hx. apply Hn. apply in_or_app; auto.
      * apply Hn. apply in_or_app. right; left; auto.
Qed.

Lemma history_extrema t ds :
  (forall d, In d ds -> not_nan t d) ->
  let e := fold_left ex_update ds ex_empty in
  (ds = [] /\ e_min e = None /\ e_max e = None) \/
  (exists m M, e_min e = Some m /\ e_max e = Some M /\ least t ds m /\ greatest t ds M).
Proof.
  intros H e.
  destruct (hist_fold t ds ex_empty [] H) as [[E1 E2]|(m & M & E & L & G)].
  - left; auto.
  - left. simpl in E1. subst e. rewrite E2. auto.
  - right. exists m, M. subst e. rewrite E. auto.
Qed.

Lemma least_val_perm t ds ds' m m' :
  Permutation ds ds' -> least t ds m -> least t ds' m' -> tval t m = tval t m'.
Proof.
  intros P [I L] [I' L'].
  destruct (L m') as (x & y & E1 & E2 & H); [eapply Permutation_in; [symmetry|]; eauto|].
  destruct (L' m) as (x' & y' & E3 & E4 & H'); [eapply Permutation_in; eauto|].
  assert (y = x') by congruence. assert (x = y') by congruence. subst. rewrite E1, E3. f_equal. lra.
Qed.

Lemma greatest_val_perm t ds ds' m m' :
  Permutation ds ds' -> greatest t ds m -> greatest t ds' m' -> tval t m = tval t m'.
Proof.
  intros P [I L] [I' L'].
  destruct (L m') as (x & y & E1 & E2 & H); [eapply Permutation_in; [symmetry|]; eauto|].
  destruct (L' m) as (x' & y' & E3 & E4 & H'); [eapply Permutation_in; eauto|].
  assert (y = x') by congruence. assert (x = y') by congruence. subst. rewrite E1, E3. f_equal. lra.
Qed.

Lemma history_order_independent t ds ds' :
  (forall d, In d ds -> not_nan t d) -> Permutation ds ds' ->
  let e := fold_left ex_update ds ex_empty in
  let e' := fold_left ex_update ds' ex_empty in
  oval t (e_min e) = oval t (e_min e') /\ oval t (e_max e) = oval t (e_max e').
Proof.
  intros H P e e'.
  assert (H' : forall d, In d ds' -> not_nan t d).
  { intros d Hd. apply H. eapply Permutation_in; [symmetry|]; eauto. }
  destruct (history_extrema t ds H) as [(E & A & B)|(m & M & A & B & L & G)];
  destruct (history_extrema t ds' H') as [(E' & A' & B')|(m' & M' & A' & B' & L' & G')];
  subst e e'; rewrite A, A', B, B'; cbn [oval].
  - auto.
  - subst ds. apply Permutation_nil in P. subst ds'. destruct L' as [[] _].
  - subst ds'. symmetry in P. apply Permutation_nil in P. subst ds. destruct L as [[] _].
  - split; [eapply least_val_perm|eapply greatest_val_perm]; eauto.
Qed.

(** ** NaN in the history *)

Lemma update_nan_nonempty t (m M : ct t) d :
  tval t d = None ->
  ex_update (Extrema (Some m) (Some M)) d = Extrema (Some m) (Some M).
Proof.
  intros H. unfold ex_update; cbn [e_min e_max]. rewrite !c_lt_spec, H.
  destruct (tval t M); reflexivity.
Qed.

Lemma update_set t (e : extrema (ct t)) d :
  exists m M, ex_update e d = Extrema (Some m) (Some M).
Proof.
  unfold ex_update. destruct (e_min e), (e_max e); repeat destruct (c_lt _ _ _); eauto.
Qed.

Lemma nan_ignored_after t ds : forall (m M : ct t),
  fold_left ex_update ds (Extrema (Some m) (Some M)) =
  fold_left ex_update (numbers t ds) (Extrema (Some m) (Some M)).
Proof.
  induction ds as [|d ds IH]; intros m M; [reflexivity|]. cbn [fold_left numbers filter].
  destruct (tval t d) as [x|] eqn:E.
  - cbn [fold_left]. destruct (update_set t (Extrema (Some m) (Some M)) d) as (m' & M' & ->).
    apply IH.
  - rewrite update_nan_nonempty by exact E. apply IH.
Qed.

Lemma nan_ignored_partial t d ds :
  not_nan t d ->
  fold_left ex_update (d :: ds) ex_empty = fold_left ex_update (numbers t (d :: ds)) ex_empty.
Proof.
  intros H. cbn [numbers filter]. unfold not_nan in H.
  destruct (tval t d) as [x|]; [|congruence]. cbn [fold_left].
  apply nan_ignored_after.
Qed.

Lemma nan_first_refuted :
  let ds := [B754_nan; double_of_Z 1; double_of_Z 2] : list (ct F64) in
  let e := fold_left ex_update ds ex_empty in
  e_min e = Some (B754_nan : ct F64) /\ e_max e = Some (B754_nan : ct F64) /\
  e_min (fold_left ex_update (numbers F64 ds) ex_empty) = Some (double_of_Z 1 : ct F64).
Proof. repeat split. Qed.

(** ** Merging *)

Lemma merge_max_spec t (a b : extrema (ct t)) :
  (forall x, e_max a = Some x -> not_nan t x) -> (forall x, e_max b = Some x -> not_nan t x) ->
  greater t (e_max a) (e_max b) (e_max (ex_merge a b)).
Proof.
  intros Ha Hb. unfold ex_merge, greater; cbn [e_max].
  destruct (e_max a) as [x|], (e_max b) as [y|]; auto.
  destruct (c_lt_dec t x y (Ha x eq_refl) (Hb y eq_refl)) as [[-> H]|[-> H]]; cbn [oval]; auto.
Qed.

Lemma merge_min_partial t (a b : extrema (ct t)) x :
  e_min a = Some x -> not_nan t x -> (forall y, e_min b = Some y -> not_nan t y) ->
  lesser t (e_min a) (e_min b) (e_min (ex_merge a b)).
Proof.
  intros Ex Hx Hb. unfold ex_merge, lesser; cbn [e_min]. rewrite Ex.
  destruct (e_min b) as [y|]; auto.
  destruct (c_lt_dec t y x (Hb y eq_refl) Hx) as [[-> H]|[-> H]]; cbn [oval]; auto.
Qed.

Lemma merge_empty_loses_minimum t (b : extrema (ct t)) :
  e_min (ex_merge ex_empty b) = None.
Proof. unfold ex_merge; cbn. destruct (e_min b); reflexivity. Qed.

(** ** Conversion of stored bounds to double *)

Lemma double_of_Z_val z : (Z.abs z <= 2 ^ 53)%Z -> dval (double_of_Z z) = Some (IZR z).
Proof.
  intros H. destruct (double_of_Z_exact z H) as [F E]. unfold dval.
  rewrite (finite_not_nan _ F), fval_finite by exact F. now rewrite E.
Qed.

Lemma double_of_float_nan (x : float) : is_nan (double_of_float x) = is_nan x.
Proof.
  destruct (is_finite x) eqn:F.
  - destruct (double_of_float_exact x F) as [F' _].
    rewrite (finite_not_nan _ F'), (finite_not_nan _ F). reflexivity.
  - destruct x; try discriminate; reflexivity.
Qed.


Lemma cval_exact t (a : ct t) :
  exact_in_double t -> in_type t a -> dval (c_to_double (ct t) a) = tval t a.
Proof.
  intros Hex Hin. unfold exact_in_double in *.
  destruct t; cbn in *; try congruence;
    try (apply double_of_Z_val; lia); [|reflexivity].
  unfold dval. rewrite double_of_float_nan.
  destruct (is_nan a) eqn:N; [reflexivity|].
  destruct (is_finite a) eqn:F.
  - destruct (double_of_float_exact a F) as [F' E'].
    rewrite !fval_finite by assumption. now rewrite E'.
  - destruct a as [s|[|]| |s m ex H]; try discriminate; reflexivity.
Qed.

(** ** in_range and is_valid *)

Lemma fle_dval (x y : double) :
  fle x y = true <-> exists a b, dval x = Some a /\ dval y = Some b /\ a <= b.
Proof.
  exact (c_le_val F64 x y).
Qed.

Lemma in_range_exact t (e : extrema (ct t)) v :
  exact_in_double t ->
  (forall a, e_min e = Some a -> in_type t a) -> (forall b, e_max e = Some b -> in_type t b) ->
  (in_range e v = true <->
   exists x, dval v = Some x /\
     (forall a, e_min e = Some a -> exists y, tval t a = Some y /\ y <= x) /\
     (exists b y, e_max e = Some b /\ tval t b = Some y /\ x <= y)).
Proof.
  intros Hex Ha Hb. unfold in_range. rewrite andb_true_iff.
  destruct (e_max e) as [b|] eqn:Eb.
  - rewrite (fle_dval v). rewrite (cval_exact t b Hex (Hb b eq_refl)).
    split.
    + intros [H1 (x & y & E1 & E2 & L)]. exists x. split; [exact E1|]. split.
      * intros a Ea. rewrite Ea in H1. apply fle_dval in H1.
        rewrite (cval_exact t a Hex (Ha a Ea)) in H1.
        destruct H1 as (p & q & F1 & F2 & L2). exists p. split; [exact F1|].
        assert (q = x) by congruence. subst; exact L2.
      * exists b, y. auto.
    + intros (x & E1 & H1 & (b' & y & E2 & E3 & L)). injection E2 as <-.
      split; [|exists x, y; auto].
      destruct (e_min e) as [a|] eqn:Ea; [|reflexivity].
      apply fle_dval. rewrite (cval_exact t a Hex (Ha a eq_refl)).
      destruct (H1 a eq_refl) as (p & F1 & L2). exists p, x; auto.
  - split.
    + intros [_ H]; discriminate.
    + intros (x & _ & _ & (b & y & E & _)). discriminate.
Qed.

Lemma is_valid_spec t (e : extrema (ct t)) :
  is_valid e = true <-> exists a b, e_min e = Some a /\ e_max e = Some b /\ val_le t a b.
Proof.
  unfold is_valid. destruct (e_min e) as [a|], (e_max e) as [b|].
  - rewrite c_le_val. split.
    + intros H. exists a, b; auto.
    + intros (x & y & E1 & E2 & H). injection E1 as <-. injection E2 as <-. exact H.
  - split; [discriminate|]. intros (? & ? & ? & ? & ?); discriminate.
  - split; [discriminate|]. intros (? & ? & ? & ? & ?); discriminate.
  - split; [discriminate|]. intros (? & ? & ? & ? & ?); discriminate.
Qed.

Lemma double_2_63 : is_finite (double_of_Z (2 ^ 63)) = true /\ B2R (double_of_Z (2 ^ 63)) = IZR (2 ^ 63).
Proof. exact (double_of_Z_shift 1 63 ltac:(lia) ltac:(lia)). Qed.

Lemma double_int64_max : double_of_Z (2 ^ 63 - 1) = double_of_Z (2 ^ 63).
Proof. apply B2SF_inj. vm_compute. reflexivity. Qed.

Lemma in_range_int64_refuted :
  exists (e : extrema (ct I64)) (v : double) (x : R) (b : Z),
    e_max e = Some (b : ct I64) /\ in_type I64 b /\
    dval v = Some x /\ IZR b < x /\ in_range e v = true.
Proof.
  exists (Extrema (Some (0%Z : ct I64)) (Some ((2 ^ 63 - 1)%Z : ct I64))), (double_of_Z (2 ^ 63)),
    (IZR (2 ^ 63)), (2 ^ 63 - 1)%Z.
  split; [reflexivity|]. split; [cbn; lia|]. split; [|split].
  - destruct double_2_63 as [F E]. unfold dval.
    rewrite (finite_not_nan _ F), fval_finite by exact F. now rewrite E.
  - apply IZR_lt. lia.
  - vm_compute. reflexivity.
Qed.

(** ** Clipping to the map type *)

Lemma pow_1024_big z : (Z.abs z <= 2 ^ 64)%Z -> - inf_val 1024 < IZR z < inf_val 1024.
Proof.
  intros H. apply Rabs_lt_inv. rewrite <- abs_IZR.
  unfold inf_val. change (Z.max 1024 1024) with 1024%Z.
  apply Rle_lt_trans with (IZR (2 ^ 64)); [now apply IZR_le|].
  change (IZR (2 ^ 64)) with (IZR (radix2 ^ 64)). rewrite IZR_Zpower by lia. apply bpow_lt; lia.
Qed.

Lemma dval_fval d x : dval d = Some x -> is_nan d = false /\ fval d = x.
Proof. unfold dval. destruct (is_nan d); [discriminate|]. intros E; injection E; auto. Qed.

Lemma int_of_double_spec lo hi d x :
  (lo <= 0 <= hi)%Z -> (Z.abs (lo - 1) <= 2 ^ 64)%Z -> (Z.abs (hi + 1) <= 2 ^ 64)%Z ->
  dval d = Some x ->
  (IZR lo - 1 < x < IZR hi + 1 -> int_of_double lo hi d = Ok (Ztrunc x)) /\
  (~ (IZR lo - 1 < x < IZR hi + 1) -> int_of_double lo hi d = UB ub_conversion).
Proof.
  intros H0 Hl Hh D. apply dval_fval in D as [N E].
  pose proof (pow_1024_big _ Hl) as Bl. pose proof (pow_1024_big _ Hh) as Bh.
  rewrite minus_IZR in Bl. rewrite plus_IZR in Bh.
  split; intros H.
  - assert (F : is_finite d = true).
    { apply fval_finite_inv; [exact N|]. rewrite E. lra. }
    rewrite fval_finite in E by exact F. rewrite <- E in H |- *.
    now apply int_of_double_ok.
  - destruct (int_of_double_cases lo hi d) as [[z Hz]|Hz]; [|exact Hz].
    apply int_of_double_inv in Hz as (F & _ & _ & R); [|exact H0].
    rewrite <- (fval_finite d F), E in R. contradiction.
Qed.

Lemma std_max_dval a b x y : dval a = Some x -> dval b = Some y ->
  dval (std_max a b) = Some (Rmax x y).
Proof.
  intros Ha Hb. pose proof (dval_fval _ _ Ha) as [Na Ea]. pose proof (dval_fval _ _ Hb) as [Nb Eb].
  unfold std_max. rewrite flt_spec by assumption. rewrite Ea, Eb.
  case Rlt_bool_spec; intros H.
  - rewrite Rmax_right by lra. exact Hb.
  - rewrite Rmax_left by lra. exact Ha.
Qed.

Lemma std_min_dval a b x y : dval a = Some x -> dval b = Some y ->
  dval (std_min a b) = Some (Rmin x y).
Proof.
  intros Ha Hb. pose proof (dval_fval _ _ Ha) as [Na Ea]. pose proof (dval_fval _ _ Hb) as [Nb Eb].
  unfold std_min. rewrite flt_spec by assumption. rewrite Ea, Eb.
  case Rlt_bool_spec; intros H.
  - rewrite Rmin_right by lra. exact Hb.
  - rewrite Rmin_left by lra. exact Ha.
Qed.

Lemma FLT_MAX_eq : FLT_MAX = FLT_MAX_R.
Proof.
  unfold FLT_MAX, FLT_MAX_R. rewrite mult_IZR.
  change (IZR (2 ^ 104)) with (IZR (radix2 ^ 104)). rewrite IZR_Zpower by lia.
  rewrite (minus_IZR (2 ^ 24) 1). change (IZR (2 ^ 24)) with (IZR (radix2 ^ 24)).
  rewrite (IZR_Zpower radix2 24) by lia.
  replace (bpow radix2 128) with (bpow radix2 24 * bpow radix2 104)%R by (now rewrite <- bpow_plus).
  assert (E1 : bpow radix2 (-24) * bpow radix2 24 = 1) by (now rewrite <- bpow_plus).
  set (a := bpow radix2 24) in *. set (b := bpow radix2 (-24)) in *. set (c := bpow radix2 104).
  replace ((1 - b) * (a * c)) with (a * c - (b * a) * c) by ring. rewrite E1. ring.
Qed.

Lemma FLT_MAX_lt_inf : 0 < FLT_MAX < inf_val 1024.
Proof.
  split.
  - unfold FLT_MAX. apply (IZR_lt 0). reflexivity.
  - rewrite FLT_MAX_eq. unfold FLT_MAX_R. apply Rlt_trans with (bpow radix2 128).
    + pose proof (bpow_gt_0 radix2 128). pose proof (bpow_gt_0 radix2 (-24)). nra.
    + unfold inf_val. apply bpow_lt. reflexivity.
Qed.

Lemma float_max_val : is_finite float_max = true /\ B2R float_max = FLT_MAX.
Proof.
  assert (A : F2R (Float radix2 (2 ^ 24 - 1) 104) = FLT_MAX).
  { unfold FLT_MAX, F2R; cbn [Fnum Fexp]. rewrite mult_IZR. f_equal. }
  rewrite <- A. unfold float_max. apply normalize_exact.
  - apply generic_format_FLT. exists (Float radix2 (2 ^ 24 - 1) 104); [reflexivity|reflexivity|].
    cbn. unfold SpecFloat.emin. lia.
  - rewrite A, FLT_MAX_eq. unfold FLT_MAX_R. pose proof (bpow_gt_0 radix2 128).
    assert (0 < bpow radix2 (-24) < 1). { split; [apply bpow_gt_0|]. change 1 with (bpow radix2 0). now apply bpow_lt. }
    rewrite Rabs_pos_eq by nra. nra.
Qed.

Lemma float_lowest_val : is_finite float_lowest = true /\ B2R float_lowest = - FLT_MAX.
Proof.
  assert (A : F2R (Float radix2 (- (2 ^ 24 - 1)) 104) = - FLT_MAX).
  { unfold FLT_MAX, F2R; cbn [Fnum Fexp]. rewrite opp_IZR, mult_IZR.
    rewrite <- Ropp_mult_distr_l. do 2 f_equal. }
  rewrite <- A. unfold float_lowest. apply normalize_exact.
  - apply generic_format_FLT. exists (Float radix2 (- (2 ^ 24 - 1)) 104); [reflexivity|reflexivity|].
    cbn. unfold SpecFloat.emin. lia.
  - rewrite A, Rabs_Ropp, FLT_MAX_eq. unfold FLT_MAX_R. pose proof (bpow_gt_0 radix2 128).
    assert (0 < bpow radix2 (-24) < 1). { split; [apply bpow_gt_0|]. change 1 with (bpow radix2 0). now apply bpow_lt. }
    rewrite Rabs_pos_eq by nra. nra.
Qed.

Lemma dval_float_max : dval (double_of_float float_max) = Some FLT_MAX.
Proof.
  destruct float_max_val as [F E]. destruct (double_of_float_exact _ F) as [F' E'].
  unfold dval. rewrite (finite_not_nan _ F'), fval_finite by exact F'. now rewrite E', E.
Qed.
Lemma dval_float_lowest : dval (double_of_float float_lowest) = Some (- FLT_MAX).
Proof.
  destruct float_lowest_val as [F E]. destruct (double_of_float_exact _ F) as [F' E'].
  unfold dval. rewrite (finite_not_nan _ F'), fval_finite by exact F'. now rewrite E', E.
Qed.

Ltac stored_int D :=
  match type of D with dval ?d = Some ?x =>
    match goal with |- context [int_of_double ?l ?h d] =>
      let A := fresh in
      destruct (int_of_double_spec l h d x) as [A _]; try lia; try exact D;
      rewrite A by lra;
      eexists; split; [reflexivity|]; split; [|reflexivity];
      apply Ztrunc_range; [lia|lra]
    end
  end.

(** Storing a double whose value lies in the type's range. *)
Lemma c_of_double_in_range t d x :
  dval d = Some x -> type_low t <= x <= type_high t ->
  exists a, c_of_double (ct t) d = Ok a /\ in_type t a /\ tval t a = Some (converted t x).
Proof.
  intros D [H1 H2].
  destruct t; cbn [ct c_of_double int_ctype float_ctype double_ctype type_low type_high converted tval in_type] in *;
    try change 0 with (IZR 0) in H1; try change 255 with (IZR 255) in H2.
  - stored_int D.
  - stored_int D.
  - stored_int D.
  - stored_int D.
  - exists (float_of_double d). split; [reflexivity|]. split; [exact I|].
    apply dval_fval in D as [N E].
    assert (B : - inf_val 1024 < fval d < inf_val 1024) by (rewrite E; pose proof FLT_MAX_lt_inf; lra).
    pose proof (fval_finite_inv d N B) as F.
    rewrite fval_finite in E by exact F.
    destruct (float_of_double_round d F) as [F' E'].
    { rewrite <- FLT_MAX_eq, E. apply Rabs_le. lra. }
    rewrite (finite_not_nan _ F'), fval_finite by exact F'. rewrite E', E. reflexivity.
  - exists d. split; [reflexivity|]. split; [exact I|]. exact D.
Qed.

Lemma double_of_Z_val64 : dval (double_of_Z (- 2 ^ 63)) = Some (IZR (- 2 ^ 63)) /\
  dval (double_of_Z (2 ^ 63 - 1)) = Some (IZR (2 ^ 63)).
Proof.
  split.
  - destruct (double_of_Z_shift (-1) 63 ltac:(lia) ltac:(lia)) as [F E].
    change (-1 * 2 ^ 63)%Z with (- 2 ^ 63)%Z in *.
    unfold dval. rewrite (finite_not_nan _ F), fval_finite by exact F. now rewrite E.
  - rewrite double_int64_max. destruct double_2_63 as [F E].
    unfold dval. rewrite (finite_not_nan _ F), fval_finite by exact F. now rewrite E.
Qed.

Lemma type_low_le_high t : type_low t <= type_high t.
Proof.
  destruct t; cbn [type_low type_high]; try (apply IZR_le; lia).
  pose proof FLT_MAX_lt_inf. lra.
Qed.

(** Clipping of a user minimum that is not above the type's maximum. *)
Lemma validate_minimum_ok t m x :
  dval m = Some x -> x <= type_high t ->
  exists a, validate_minimum (T := ct t) m = Ok a /\ in_type t a /\
    tval t a = Some (converted t (clip_low t x)).
Proof.
  intros D H. pose proof (dval_fval _ _ D) as [N E]. unfold validate_minimum. rewrite N.
  pose proof (type_low_le_high t) as LH.
  assert (R1 : type_low t <= Rmax x (type_low t) <= type_high t).
  { split; [apply Rmax_r|]. apply Rmax_lub; assumption. }
  destruct t; cbn [clip_low clip_high ct c_trait_min int_ctype float_ctype double_ctype].
  - destruct (c_of_double_in_range U8 (std_max m (double_of_Z 0)) (Rmax x (IZR 0))) as (a & P); [|exact R1|exists a; exact P].
    apply std_max_dval; [exact D|apply double_of_Z_val; lia].
  - destruct (c_of_double_in_range I16 (std_max m (double_of_Z (- 2 ^ 15))) (Rmax x (IZR (- 2 ^ 15)))) as (a & P); [|exact R1|exists a; exact P].
    apply std_max_dval; [exact D|apply double_of_Z_val; lia].
  - destruct (c_of_double_in_range I32 (std_max m (double_of_Z (- 2 ^ 31))) (Rmax x (IZR (- 2 ^ 31)))) as (a & P); [|exact R1|exists a; exact P].
    apply std_max_dval; [exact D|apply double_of_Z_val; lia].
  - destruct (c_of_double_in_range I64 (std_max m (double_of_Z (- 2 ^ 63))) (Rmax x (IZR (- 2 ^ 63)))) as (a & P); [|exact R1|exists a; exact P].
    apply std_max_dval; [exact D|apply double_of_Z_val64].
  - destruct (c_of_double_in_range F32 (std_max m (double_of_float float_lowest)) (Rmax x (- FLT_MAX))) as (a & P); [|exact R1|exists a; exact P].
    apply std_max_dval; [exact D|apply dval_float_lowest].
  - exists m. repeat split. exact D.
Qed.

(** Clipping of a user maximum that is not below the type's minimum; 64-bit
    integers need it to be below 2^63 as well. *)
Lemma validate_maximum_ok t m x :
  dval m = Some x -> type_low t <= x -> (t = I64 -> x <= type_high t) ->
  exists a, validate_maximum (T := ct t) m = Ok a /\ in_type t a /\
    tval t a = Some (converted t (clip_high t x)).
Proof.
  intros D H H64. pose proof (dval_fval _ _ D) as [N E]. unfold validate_maximum. rewrite N.
  pose proof (type_low_le_high t) as LH.
  assert (R1 : type_low t <= Rmin x (type_high t) <= type_high t).
  { split; [|apply Rmin_r]. apply Rmin_glb; assumption. }
  destruct t; cbn [clip_low clip_high ct c_trait_max int_ctype float_ctype double_ctype].
  - destruct (c_of_double_in_range U8 (std_min m (double_of_Z 255)) (Rmin x (IZR 255))) as (a & P); [|exact R1|exists a; exact P].
    apply std_min_dval; [exact D|apply double_of_Z_val; lia].
  - destruct (c_of_double_in_range I16 (std_min m (double_of_Z (2 ^ 15 - 1))) (Rmin x (IZR (2 ^ 15 - 1)))) as (a & P); [|exact R1|exists a; exact P].
    apply std_min_dval; [exact D|apply double_of_Z_val; lia].
  - destruct (c_of_double_in_range I32 (std_min m (double_of_Z (2 ^ 31 - 1))) (Rmin x (IZR (2 ^ 31 - 1)))) as (a & P); [|exact R1|exists a; exact P].
    apply std_min_dval; [exact D|apply double_of_Z_val; lia].
  - specialize (H64 eq_refl).
    destruct (c_of_double_in_range I64 (std_min m (double_of_Z (2 ^ 63 - 1))) (Rmin x (type_high I64))) as (a & P); [|exact R1|exists a; exact P].
    rewrite (std_min_dval m _ x (IZR (2 ^ 63)) D (proj2 double_of_Z_val64)).
    f_equal. cbn [type_high] in *. rewrite !Rmin_left; [reflexivity|exact H64|].
    eapply Rle_trans; [exact H64|]. apply IZR_le. lia.
  - destruct (c_of_double_in_range F32 (std_min m (double_of_float float_max)) (Rmin x FLT_MAX)) as (a & P); [|exact R1|exists a; exact P].
    apply std_min_dval; [exact D|apply dval_float_max].
  - exists m. repeat split. exact D.
Qed.

Lemma ex_make_ok t lo hi x y :
  dval lo = Some x -> dval hi = Some y ->
  x <= type_high t -> type_low t <= y -> (t = I64 -> y <= type_high t) ->
  exists a b, in_type t a /\ in_type t b /\
    tval t a = Some (converted t (clip_low t x)) /\
    tval t b = Some (converted t (clip_high t y)) /\
    (converted t (clip_low t x) <= converted t (clip_high t y) ->
       ex_make lo hi = Ok (Extrema (Some a) (Some b))) /\
    (converted t (clip_high t y) < converted t (clip_low t x) ->
       ex_make (T := ct t) lo hi = Throw invalid_argument).
Proof.
  intros Dx Dy Hx Hy H64.
  destruct (validate_minimum_ok t lo x Dx Hx) as (a & Ea & Ia & Va).
  destruct (validate_maximum_ok t hi y Dy Hy H64) as (b & Eb & Ib & Vb).
  exists a, b. repeat (split; [assumption|]).
  unfold ex_make. rewrite Ea. cbn [bind]. rewrite Eb. cbn [bind].
  unfold is_valid; cbn [e_min e_max]. rewrite c_le_spec, Va, Vb.
  split; intros H.
  - now rewrite Rle_bool_true.
  - now rewrite Rle_bool_false.
Qed.

Lemma ex_make_nan t lo hi :
  (is_nan lo = true -> ex_make (T := ct t) lo hi = Throw invalid_argument) /\
  (forall a, validate_minimum (T := ct t) lo = Ok a -> is_nan hi = true ->
     ex_make (T := ct t) lo hi = Throw invalid_argument).
Proof.
  split.
  - intros H. unfold ex_make, validate_minimum. now rewrite H.
  - intros a Ha H. unfold ex_make. rewrite Ha. cbn [bind]. unfold validate_maximum. now rewrite H.
Qed.

(** Exactly which minima and maxima of an integer map are converted with
    undefined behaviour. *)
Lemma validate_minimum_ub t m x :
  is_int_type t = true -> dval m = Some x ->
  (validate_minimum (T := ct t) m = UB ub_conversion <-> type_high t + 1 <= x).
Proof.
  intros Ht D. pose proof (dval_fval _ _ D) as [N E].
  assert (L : type_low t <= 0 <= type_high t).
  { destruct t; try discriminate; cbn [type_low type_high]; split; apply IZR_le; lia. }
  split; intros H.
  - destruct (Rle_or_lt (type_high t + 1) x) as [C|C]; [exact C|].
    exfalso. revert H. unfold validate_minimum. rewrite N.
    assert (R1 : type_low t - 1 < Rmax x (type_low t) < type_high t + 1).
    { split; [|apply Rmax_lub_lt; lra]. pose proof (Rmax_r x (type_low t)). lra. }
    destruct t; try discriminate; cbn [ct c_trait_min int_ctype type_low type_high] in *;
    match goal with |- int_of_double ?l ?h ?d = _ -> False =>
      destruct (int_of_double_spec l h d (Rmax x (IZR l))) as [A _]; try lia;
      [apply std_max_dval; [exact D|first [apply double_of_Z_val; lia|apply double_of_Z_val64]]
      |rewrite A by exact R1; discriminate] end.
  - unfold validate_minimum. rewrite N.
    assert (R1 : ~ (type_low t - 1 < Rmax x (type_low t) < type_high t + 1)).
    { intros [_ C]. pose proof (Rmax_l x (type_low t)). lra. }
    destruct t; try discriminate; cbn [ct c_trait_min int_ctype type_low type_high] in *;
    match goal with |- int_of_double ?l ?h ?d = _ =>
      destruct (int_of_double_spec l h d (Rmax x (IZR l))) as [_ A]; try lia;
      [apply std_max_dval; [exact D|first [apply double_of_Z_val; lia|apply double_of_Z_val64]]
      |apply A; exact R1] end.
Qed.

Lemma int_maximum_ub l h hd m x :
  (l <= 0 <= h)%Z -> (Z.abs (l - 1) <= 2 ^ 64)%Z -> (Z.abs (h + 1) <= 2 ^ 64)%Z ->
  dval (double_of_Z h) = Some hd -> IZR h <= hd -> dval m = Some x ->
  (validate_maximum (T := int_ctype l h) m = UB ub_conversion <->
   x <= IZR l - 1 \/ (IZR h + 1 <= hd /\ IZR h + 1 <= x)).
Proof.
  intros Hlh Hl Hh Dh Hhd D. pose proof (dval_fval _ _ D) as [N E].
  assert (L : IZR l <= 0 <= IZR h) by (split; apply IZR_le; lia).
  unfold validate_maximum. rewrite N. cbn [c_trait_max int_ctype].
  destruct (int_of_double_spec l h _ _ Hlh Hl Hh (std_min_dval _ _ _ _ D Dh)) as [A B].
  split; intros H.
  - destruct (Rle_or_lt x (IZR l - 1)) as [C|C]; [left; exact C|right].
    destruct (Rlt_or_le (Rmin x hd) (IZR h + 1)) as [C2|C2].
    + rewrite A in H; [discriminate|]. split; [|exact C2].
      apply Rmin_glb_lt; [exact C|]. lra.
    + pose proof (Rmin_l x hd). pose proof (Rmin_r x hd). lra.
  - apply B. intros [C1 C2]. destruct H as [H|[H1 H2]].
    + pose proof (Rmin_l x hd). lra.
    + assert (IZR h + 1 <= Rmin x hd) by (apply Rmin_glb; assumption). lra.
Qed.

Lemma validate_maximum_ub t m x :
  is_int_type t = true -> dval m = Some x ->
  (validate_maximum (T := ct t) m = UB ub_conversion <->
   x <= type_low t - 1 \/ (t = I64 /\ type_high t + 1 <= x)).
Proof.
  intros Ht D.
  destruct t; try discriminate; cbn [ct type_low type_high].
  - rewrite (int_maximum_ub 0 255 255 m x); try lia; try exact D; try lra;
      [|apply double_of_Z_val; lia].
    split; (intros [H|[H1 H2]]; [left; exact H|exfalso]); [lra|discriminate].
  - rewrite (int_maximum_ub _ _ (IZR (2 ^ 15 - 1)) m x); try lia; try exact D; try lra;
      [|apply double_of_Z_val; lia].
    split; (intros [H|[H1 H2]]; [left; exact H|exfalso]); [lra|discriminate].
  - rewrite (int_maximum_ub _ _ (IZR (2 ^ 31 - 1)) m x); try lia; try exact D; try lra;
      [|apply double_of_Z_val; lia].
    split; (intros [H|[H1 H2]]; [left; exact H|exfalso]); [lra|discriminate].
  - rewrite (int_maximum_ub _ _ (IZR (2 ^ 63)) m x); try lia; try exact D;
      [|apply double_of_Z_val64|apply IZR_le; lia].
    split; (intros [H|[H1 H2]]; [left; exact H|right]); (split; [|exact H2]).
    + reflexivity.
    + rewrite <- plus_IZR. apply IZR_le. lia.
Qed.

(** Concrete undefined conversions. *)
Lemma dval_Z z : (Z.abs z <= 2 ^ 53)%Z -> dval (double_of_Z z) = Some (IZR z).
Proof. exact (double_of_Z_val z). Qed.

Lemma ex_make_ub_refuted :
  ex_make (T := ct I16) (double_of_Z 40000) (double_of_Z 50000) = UB ub_conversion /\
  ex_make (T := ct U8) (double_of_Z (-10)) (double_of_Z (-5)) = UB ub_conversion /\
  ex_make (T := ct I64) (double_of_Z 0) (double_of_Z (2 ^ 63)) = UB ub_conversion.
Proof. repeat split; vm_compute; reflexivity. Qed.

Lemma setters_spec t (e : extrema (ct t)) m :
  (is_nan m = true -> ex_set_min e m = Throw invalid_argument /\ ex_set_max e m = Throw invalid_argument) /\
  (forall x, dval m = Some x -> x <= type_high t ->
     exists a, in_type t a /\ tval t a = Some (converted t (clip_low t x)) /\
       ex_set_min e m = Ok (Extrema (Some a) (e_max e))) /\
  (forall x, dval m = Some x -> type_low t <= x -> (t = I64 -> x <= type_high t) ->
     exists a, in_type t a /\ tval t a = Some (converted t (clip_high t x)) /\
       ex_set_max e m = Ok (Extrema (e_min e) (Some a))).
Proof.
  unfold ex_set_min, ex_set_max. split; [|split].
  - intros N. unfold validate_minimum, validate_maximum. rewrite N. split; reflexivity.
  - intros x Hx H. destruct (validate_minimum_ok t m x Hx H) as (a & E & I & V). exists a. rewrite E. auto.
  - intros x Hx H H'. destruct (validate_maximum_ok t m x Hx H H') as (a & E & I & V). exists a. rewrite E. auto.
Qed.
