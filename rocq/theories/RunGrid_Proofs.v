(** Proofs for C111. *)
From Coq Require Import List ZArith Reals Bool String Lra Lia Psatz.
From Flocq Require Import Core BinarySingleNaN.
From Verif Require Import Base BaseFacts Flt FltFacts Num Maths_Model Spheroid_Model Spheroid_Proofs Extrema_Model Extrema_Spec MakeMap_Model MakeMap_Spec MakeMap_Proofs
  Proj_Model Proj_Spec Proj_Proofs ProjGrid_Proofs Virtual_Model Virtual_Spec Virtual_Proofs VirtualPlane_Proofs Params_Model
  Fits_Model Fits_Spec Command_Model Command_Spec Command_Proofs Input_Model Entry_Model Parse_Model Parse_Spec Parse_Proofs
  Run_Model Run_Spec RunAngle_Proofs RunScale_Proofs Run_Proofs RunPlane_Proofs RunMercator_Spec RunMercator_Proofs RunGrid_Spec.
Import ListNotations.
Open Scope R_scope.

#[local] Existing Instance prec53.
#[local] Existing Instance emax53.
Local Ltac abs H := apply Rabs_le_inv in H.
Local Notation rnd := (round radix2 (SpecFloat.fexp 53 1024) ZnearestE).
#[local] Instance valid53' : Valid_exp (SpecFloat.fexp 53 1024) := fexp_correct 53 1024 eq_refl.

(** ** Multiples of 1/1024 *)
Lemma exact_1024 z : (Z.abs z < 2 ^ 53)%Z -> rnd (IZR z / 1024) = IZR z / 1024.
Proof.
  intros Z. apply round_generic; [apply valid_rnd_N|].
  replace (IZR z / 1024) with (F2R (Float radix2 z (-10))).
  2: { unfold F2R. cbn [Fnum Fexp]. change (bpow radix2 (-10)) with (/ 1024). lra. }
  apply (generic_format_FLT radix2 (3 - 1024 - 53) 53). exists (Float radix2 z (-10)); [reflexivity|exact Z|cbn; lia].
Qed.
Lemma small_1024 z : (Z.abs z < 2 ^ 53)%Z -> Rabs (IZR z / 1024) < bpow radix2 1024.
Proof.
  intros Z. unfold Rdiv. rewrite Rabs_mult, (Rabs_pos_eq (/ 1024)) by lra. rewrite <- abs_IZR.
  apply Rlt_trans with (bpow radix2 53); [|apply bpow_lt; lia]. change (bpow radix2 53) with (IZR (2 ^ 53)). apply IZR_lt in Z.
  assert (0 <= IZR (Z.abs z)) by (apply IZR_le; lia). lra.
Qed.
Definition is_1024 (x : double) (z : Z) : Prop := is_finite x = true /\ B2R x = IZR z / 1024.
Lemma plus_1024 x y a b : is_1024 x a -> is_1024 y b -> (Z.abs (a + b) < 2 ^ 53)%Z -> is_1024 (Bplus mode_NE x y) (a + b).
Proof.
  intros [Fx Ex] [Fy Ey] B. assert (V : B2R x + B2R y = IZR (a + b) / 1024) by (rewrite Ex, Ey, plus_IZR; lra).
  pose proof (plus_round x y Fx Fy) as P. rewrite V, exact_1024 in P by exact B. apply P. now apply small_1024.
Qed.
Lemma minus_1024 x y a b : is_1024 x a -> is_1024 y b -> (Z.abs (a - b) < 2 ^ 53)%Z -> is_1024 (Bminus mode_NE x y) (a - b).
Proof.
  intros [Fx Ex] [Fy Ey] B. assert (V : B2R x - B2R y = IZR (a - b) / 1024) by (rewrite Ex, Ey, minus_IZR; lra).
  pose proof (Bminus_correct 53 1024 _ _ mode_NE x y Fx Fy) as C. cbn [round_mode] in C.
  rewrite V, exact_1024 in C by exact B.
  rewrite Rlt_bool_true in C by now apply small_1024. destruct C as (E & F & _). split; assumption.
Qed.
Lemma int_1024 z : (Z.abs z < 2 ^ 43)%Z -> is_1024 (double_of_Z z) (1024 * z).
Proof.
  intros H. destruct (double_of_Z_exact z ltac:(lia)) as [F E]. split; [exact F|]. rewrite E, mult_IZR. lra.
Qed.
Lemma lt_1024 x y a b : is_1024 x a -> is_1024 y b -> flt x y = (a <? b)%Z.
Proof.
  intros [Fx Ex] [Fy Ey]. rewrite flt_finite by assumption. rewrite Ex, Ey.
  destruct (Z.ltb_spec a b) as [H|H].
  - apply Rlt_bool_true. apply IZR_lt in H. lra.
  - apply Rlt_bool_false. apply IZR_le in H. lra.
Qed.

(** ** Rounding *)
Definition row_of (x : double) : Z := if is_finite x then ZnearestA (B2R x) else (-1)%Z.
Lemma rounded_finite (L : libm ar_double) (x : double) : rounds_to_integer L -> is_finite x = true ->
  is_finite (l_round L x : double) = true /\ B2R (l_round L x : double) = IZR (ZnearestA (B2R x)).
Proof.
  intros HL F. rewrite HL. destruct (Bnearbyint_correct 53 1024 emax53 mode_NA x) as (V & Fr & _). cbn [round_mode] in V.
  rewrite round_NA_IZR in V. split; [now rewrite Fr|exact V].
Qed.
Lemma rounded_row (L : libm ar_double) (x : double) n : rounds_to_integer L -> (0 <= n < 2 ^ 53)%Z ->
  a_le ar_double (a_of_Z ar_double 0) (l_round L x) && a_lt ar_double (l_round L x) (a_of_Z ar_double n) = ((0 <=? row_of x)%Z && (row_of x <? n)%Z).
Proof.
  intros HL N. unfold row_of. destruct (double_of_Z_exact 0 ltac:(lia)) as [F0 E0]. destruct (double_of_Z_exact n ltac:(lia)) as [Fn En].
  destruct (is_finite x) eqn:F.
  - destruct (rounded_finite L x HL F) as [Fk Ek]. unfold a_le. cbn [a_isnan a_lt a_of_Z ar_double].
    rewrite (finite_not_nan _ F0), (finite_not_nan _ Fk). cbn [negb andb].
    rewrite !flt_finite by assumption. rewrite Ek, E0, En. f_equal.
    + destruct (Z.leb_spec 0 (ZnearestA (B2R x))) as [H|H].
      * rewrite Rlt_bool_false; [reflexivity|]. apply IZR_le. exact H.
      * rewrite Rlt_bool_true; [reflexivity|]. apply IZR_lt. exact H.
    + destruct (Z.ltb_spec (ZnearestA (B2R x)) n) as [H|H].
      * apply Rlt_bool_true. apply IZR_lt. exact H.
      * apply Rlt_bool_false. apply IZR_le. exact H.
  - change ((0 <=? -1)%Z && (-1 <? n)%Z) with false. rewrite HL. unfold a_le. cbn [a_isnan a_lt a_of_Z ar_double].
    destruct x as [s|s| |s m e Hx]; try discriminate F; cbn [Bnearbyint is_nan negb].
    + destruct s.
      * destruct (double_of_Z 0) as [[]|[]| |[] ? ? ?] eqn:Q; try discriminate F0; reflexivity.
      * destruct (double_of_Z n) as [[]|[]| |[] ? ? ?] eqn:Q; try discriminate Fn; cbn; rewrite ?andb_false_r; reflexivity.
    + now rewrite andb_false_r.
Qed.
Lemma size_of_int (x : double) z : is_finite x = true -> B2R x = IZR z -> (0 <= z <= 2 ^ 60)%Z -> a_size ar_double x = Ok z.
Proof.
  intros F V Hz. cbn [a_size ar_double]. rewrite int_of_double_ok; [|split; [lia|discriminate]|exact F|].
  - now rewrite V, Ztrunc_IZR.
  - rewrite V. split.
    + apply Rlt_le_trans with (IZR 0); [simpl; lra|]. apply IZR_le. lia.
    + apply Rle_lt_trans with (IZR (2 ^ 60)); [apply IZR_le; lia|]. rewrite <- plus_IZR. apply IZR_lt. reflexivity.
Qed.

(** ** The loops *)
Definition iterate (next : double -> double) (x : double) (j : Z) : double := Nat.iter (Z.to_nat j) next x.
Lemma iterate_next next x j : (0 <= j)%Z -> next (iterate next x j) = iterate next x (j + 1).
Proof. intros H. unfold iterate. replace (Z.to_nat (j + 1)) with (S (Z.to_nat j)) by lia. reflexivity. Qed.

Section Cylinder.
Context (L : libm ar_double) (HL : rounds_to_integer L) (samples lines : Z).
Context (S0 : (0 < samples)%Z) (L0 : (0 < lines)%Z) (Small : (samples * lines < 2 ^ 53)%Z).

Section Rows.
Context (lat : double) (a : Z) (Ha : (0 < a < 2 ^ 40)%Z) (Hlat : is_1024 lat a) (ordinate : double -> double).
Let next (x : double) := Bplus mode_NE x lat.
Let start := Bplus mode_NE (double_of_Z (-90)) lat.
Let N := ((184319) / a)%Z.
Definition latitude_at (j : Z) : double := iterate next start j.

Lemma N_spec j : (j < N <-> (j + 1) * a < 184320)%Z.
Proof.
  unfold N. split; intros H.
  - assert (j + 1 <= 184319 / a)%Z by lia. assert (a * (184319 / a) <= 184319)%Z by (apply Z.mul_div_le; lia). nia.
  - assert (j + 1 <= 184319 / a)%Z; [|lia]. apply Z.div_le_lower_bound; nia.
Qed.
Lemma latitude_at_val j : (0 <= j <= N)%Z -> is_1024 (latitude_at j) (-92160 + (j + 1) * a).
Proof.
  intros [J0 J]. revert J. pattern j. apply natlike_ind; [| |exact J0].
  - intros _. unfold latitude_at, iterate, start. cbn [Z.to_nat Nat.iter].
    replace (-92160 + (0 + 1) * a)%Z with (1024 * -90 + a)%Z by ring. apply plus_1024; [apply int_1024; lia|exact Hlat|lia].
  - intros x Hx IH Hle. unfold latitude_at. change (Z.succ x) with (x + 1)%Z. rewrite <- iterate_next by exact Hx. fold (latitude_at x).
    specialize (IH ltac:(lia)). assert (B : ((x + 1) * a < 184320)%Z) by (apply N_spec; lia).
    replace (-92160 + (x + 1 + 1) * a)%Z with (-92160 + (x + 1) * a + a)%Z by ring. unfold next.
    apply plus_1024; [exact IH|exact Hlat|]. nia.
Qed.

Lemma rows_drawn g : Z.of_nat (List.length g) = (samples * lines)%Z ->
  exists g', (forall fuel x, latitude_lines (A := ar_double) L fuel samples lines lat ordinate g = Some x -> x = Ok g') /\
    painted g g' (fun q => exists j, (0 <= j < N)%Z /\ let k := row_of (ordinate (latitude_at j)) in
      (0 <= k < lines)%Z /\ (k * samples <= q < k * samples + samples)%Z).
Proof.
  intros Hg.
  set (P := fun j q : Z => let k := row_of (ordinate (latitude_at j)) in (0 <= k < lines)%Z /\ (k * samples <= q < k * samples + samples)%Z).
  assert (N0 : (0 <= N)%Z) by (unfold N; apply Z.div_pos; lia).
  destruct (for_loop_paints (fun n : double => flt n (double_of_Z 90)) next (draw_latitude (A := ar_double) L samples lines ordinate)
    latitude_at N (samples * lines) P N0) with (fuel := S (Z.to_nat N)) (g := g) as (g' & E & Pt).
  - intros j Hj. rewrite (lt_1024 _ _ _ _ (latitude_at_val j Hj) (int_1024 90 ltac:(lia))).
    destruct (Z.ltb_spec j N) as [H|H].
    + apply N_spec in H. apply Z.ltb_lt. lia.
    + apply Z.ltb_ge. assert (~ ((j + 1) * a < 184320)%Z) by (rewrite <- N_spec; lia). lia.
  - intros j Hj. apply iterate_next. lia.
  - intros j q. unfold P. cbv zeta. set (k := row_of _).
    destruct (Z_le_dec 0 k), (Z_lt_dec k lines), (Z_le_dec (k * samples) q), (Z_lt_dec q (k * samples + samples));
      first [left; lia | right; lia].
  - intros j g0 Hj Hg0. unfold draw_latitude. cbv zeta. rewrite rounded_row by (try assumption; nia). unfold P. cbv zeta.
    set (x := ordinate (latitude_at j)). set (k := row_of x).
    destruct (Z.leb_spec 0 k) as [H1|H1]; cbn [andb].
    2: { exists g0. split; [reflexivity|]. apply painted_none. intros. lia. }
    destruct (Z.ltb_spec k lines) as [H2|H2].
    2: { exists g0. split; [reflexivity|]. apply painted_none. intros. lia. }
    assert (Fx : is_finite x = true). { unfold k, row_of in H1. destruct (is_finite x); [reflexivity|lia]. }
    destruct (rounded_finite L x HL Fx) as [Fk Ek]. assert (Kx : k = ZnearestA (B2R x)) by (unfold k, row_of; now rewrite Fx).
    rewrite <- Kx in Ek. destruct (double_of_Z_exact samples ltac:(nia)) as [Fs Es]. destruct (double_of_Z_exact (k * samples) ltac:(nia)) as [Fz Ez].
    assert (M : is_finite (a_mul ar_double (l_round L x) (a_of_Z ar_double samples) : double) = true /\
                B2R (a_mul ar_double (l_round L x) (a_of_Z ar_double samples) : double) = IZR (k * samples)).
    { cbn [a_mul a_of_Z ar_double]. pose proof (mult_round (l_round L x) (double_of_Z samples) Fk Fs) as Q. rewrite Ek, Es, <- mult_IZR in Q.
      rewrite <- Ez in Q. replace (rnd (B2R (double_of_Z (k * samples)))) with (B2R (double_of_Z (k * samples))) in Q
        by (symmetry; apply round_generic; [apply valid_rnd_N|apply generic_format_B2R]).
      rewrite <- Ez. apply Q. apply abs_B2R_lt_emax. }
    destruct M as [Fm Em]. rewrite (size_of_int _ (k * samples) Fm Em ltac:(nia)). cbn [bind].
    destruct (fill_row_painted (Z.to_nat samples) (k * samples) g0) as (g1 & E1 & P1); [nia|nia|].
    exists g1. split; [exact E1|]. destruct P1 as [Pl P1]. split; [exact Pl|]. intros q Hq. destruct (P1 q Hq) as [Pa Pb].
    split; intros Sq; [apply Pa; lia|apply Pb; lia].
  - lia.
  - exact Hg.
  - exists g'. split; [|exact Pt]. intros fuel x Hx. unfold latitude_lines in Hx.
    change (for_loop fuel (fun n : double => flt n (double_of_Z 90)) next (draw_latitude (A := ar_double) L samples lines ordinate)
      (latitude_at 0) g = Some x) in Hx.
    apply (for_loop_more _ _ _ _ (Nat.max fuel (S (Z.to_nat N))) (Nat.le_max_l _ _)) in Hx.
    apply (for_loop_more _ _ _ _ (Nat.max fuel (S (Z.to_nat N))) (Nat.le_max_r _ _)) in E. congruence.
Qed.
End Rows.

Section Columns.
Context (lon : double) (a : Z) (Ha : (0 < a < 2 ^ 40)%Z) (Hlon : is_1024 lon a) (pro : bool) (abscissa : double -> double).
Let next (x : double) := Bminus mode_NE x lon.
Let N := (368639 / a + 1)%Z.
Definition longitude_at (j : Z) : double := iterate next (double_of_Z 360) j.
Context (Fine : forall j, (0 <= j < N)%Z -> is_finite (abscissa (longitude_at j)) = true /\
  - / 2 < B2R (abscissa (longitude_at j)) < 2 ^ 54).

Lemma N_spec' j : (j < N <-> j * a < 368640)%Z.
Proof.
  unfold N. split; intros H.
  - assert (j <= 368639 / a)%Z by lia. assert (a * (368639 / a) <= 368639)%Z by (apply Z.mul_div_le; lia). nia.
  - assert (j <= 368639 / a)%Z; [|lia]. apply Z.div_le_lower_bound; nia.
Qed.
Lemma longitude_at_val j : (0 <= j <= N)%Z -> is_1024 (longitude_at j) (368640 - j * a).
Proof.
  intros [J0 J]. revert J. pattern j. apply natlike_ind; [| |exact J0].
  - intros _. unfold longitude_at, iterate. cbn [Z.to_nat Nat.iter].
    replace (368640 - 0 * a)%Z with (1024 * 360)%Z by ring. apply int_1024. lia.
  - intros x Hx IH Hle. unfold longitude_at. change (Z.succ x) with (x + 1)%Z. rewrite <- iterate_next by exact Hx. fold (longitude_at x).
    specialize (IH ltac:(lia)). assert (B : (x * a < 368640)%Z) by (apply N_spec'; lia).
    replace (368640 - (x + 1) * a)%Z with (368640 - x * a - a)%Z by ring. unfold next.
    apply minus_1024; [exact IH|exact Hlon|]. nia.
Qed.
Definition column_of (x : double) : Z := if pro then (samples - ZnearestA (B2R x))%Z else ZnearestA (B2R x).

Lemma columns_drawn g : Z.of_nat (List.length g) = (samples * lines)%Z ->
  exists g', (forall fuel x, longitude_lines (A := ar_double) L fuel pro samples lines lon abscissa g = Some x -> x = Ok g') /\
    painted g g' (fun q => exists j, (0 <= j < N)%Z /\ let i := column_of (abscissa (longitude_at j)) in
      (0 <= i < samples)%Z /\ exists k, (0 <= k < lines)%Z /\ q = (k * samples + i)%Z).
Proof.
  intros Hg.
  set (P := fun j q : Z => let i := column_of (abscissa (longitude_at j)) in
    (0 <= i < samples)%Z /\ exists k, (0 <= k < lines)%Z /\ q = (k * samples + i)%Z).
  assert (N0 : (0 <= N)%Z). { unfold N. assert (0 <= 368639 / a)%Z by (apply Z.div_pos; lia). lia. }
  destruct (for_loop_paints (fun m : double => flt (double_of_Z 0) m) next (draw_longitude (A := ar_double) L pro samples lines abscissa)
    longitude_at N (samples * lines) P N0) with (fuel := S (Z.to_nat N)) (g := g) as (g' & E & Pt).
  - intros j Hj. rewrite (lt_1024 _ _ _ _ (int_1024 0 ltac:(lia)) (longitude_at_val j Hj)).
    destruct (Z.ltb_spec j N) as [H|H].
    + apply N_spec' in H. apply Z.ltb_lt. lia.
    + apply Z.ltb_ge. assert (~ (j * a < 368640)%Z) by (rewrite <- N_spec'; lia). lia.
  - intros j Hj. apply iterate_next. lia.
  - intros j q. unfold P. cbv zeta. set (i := column_of _).
    destruct (Z_le_dec 0 i); [|right; lia]. destruct (Z_lt_dec i samples); [|right; lia].
    set (k := ((q - i) / samples)%Z). destruct (Z.eq_dec q (k * samples + i)).
    + destruct (Z_le_dec 0 k); [destruct (Z_lt_dec k lines)|].
      * left. split; [lia|]. exists k. lia.
      * right. intros (_ & k' & Hk' & Eq). assert (k' = k) by nia. lia.
      * right. intros (_ & k' & Hk' & Eq). assert (k' = k) by nia. lia.
    + right. intros (_ & k' & Hk' & Eq). apply n. unfold k. rewrite Eq at 2.
      replace (k' * samples + i - i)%Z with (k' * samples)%Z by ring. rewrite Z.div_mul by lia. exact Eq.
  - intros j g0 Hj Hg0. unfold draw_longitude. destruct (Fine j Hj) as [Fx Bx]. unfold P. cbv zeta.
    set (x := abscissa (longitude_at j)) in *. destruct (rounded_finite L x HL Fx) as [Fk Ek].
    unfold column_of. set (r := ZnearestA (B2R x)) in *.
    assert (Hr : (0 <= r <= 2 ^ 54)%Z).
    { pose proof (Znearest_half (Zle_bool 0) (B2R x)) as Hh. fold r in Hh. abs Hh. split.
      - assert (-1 < r)%Z; [|lia]. apply lt_IZR. lra.
      - assert (r < 2 ^ 54 + 1)%Z; [|lia]. apply lt_IZR. rewrite plus_IZR. assert (IZR (2 ^ 54) = 2 ^ 54) by (rewrite (pow_IZR 2 54); reflexivity). lra. }
    rewrite (size_of_int _ r Fk Ek ltac:(lia)). cbn [bind].
    assert (Sm : (samples < 2 ^ 53)%Z) by nia.
    set (col := if pro then (samples - r)%Z else r).
    assert (Hw : (if pro then wrap (samples - r) else r) = col /\ (0 <= col)%Z \/
                 (samples <= (if pro then wrap (samples - r) else r) /\ ~ 0 <= col < samples)%Z).
    { unfold col. destruct pro; [|left; lia]. destruct (Z_le_dec r samples).
      - left. rewrite wrap_id; [lia|]. unfold size_mod. lia.
      - right. split; [|lia]. unfold wrap. replace (samples - r)%Z with ((samples - r + size_mod) + (-1) * size_mod)%Z by ring.
        rewrite Z.mod_add by discriminate. rewrite Z.mod_small; unfold size_mod; lia. }
    set (w := if pro then wrap (samples - r) else r) in *. clearbody w.
    destruct (Z.ltb_spec w samples) as [Lt|Ge].
    + destruct Hw as [[-> Hi]|[Hw _]]; [|lia].
      destruct (fill_column_painted (Z.to_nat lines) samples col 0 g0) as (g1 & E1 & P1); [lia|lia|nia|unfold size_mod; nia|].
      exists g1. split; [exact E1|]. destruct P1 as [Pl P1]. split; [exact Pl|]. intros q Hq. destruct (P1 q Hq) as [Pa Pb].
      split.
      * intros [_ (k & Hk & Eq)]. apply Pa. exists k. split; [lia|exact Eq].
      * intros X. apply Pb. intros (k & Hk & Eq). apply X. split; [lia|]. exists k. split; [lia|exact Eq].
    + exists g0. split; [reflexivity|]. apply painted_none. intros q Hq [Hi _]. destruct Hw as [Hw|Hw]; lia.
  - lia.
  - exact Hg.
  - exists g'. split; [|exact Pt]. intros fuel x Hx. unfold longitude_lines in Hx.
    change (for_loop fuel (fun m : double => flt (double_of_Z 0) m) next (draw_longitude (A := ar_double) L pro samples lines abscissa)
      (longitude_at 0) g = Some x) in Hx.
    apply (for_loop_more _ _ _ _ (Nat.max fuel (S (Z.to_nat N))) (Nat.le_max_l _ _)) in Hx.
    apply (for_loop_more _ _ _ _ (Nat.max fuel (S (Z.to_nat N))) (Nat.le_max_r _ _)) in E. congruence.
Qed.
End Columns.

Section Both.
Context (lat lon : double) (a b : Z) (Ha : (0 < a < 2 ^ 40)%Z) (Hlat : is_1024 lat a) (Hb : (0 < b < 2 ^ 40)%Z) (Hlon : is_1024 lon b).
Context (pro : bool) (ordinate abscissa : double -> double).
Definition row (j : Z) : Z := row_of (ordinate (latitude_at lat (j - 1))).
Definition col (j : Z) : Z := column_of pro (abscissa (longitude_at lon j)).
Context (Fine : forall j, (0 <= j)%Z -> 0 < 360 - IZR j * B2R lon -> is_finite (abscissa (longitude_at lon j)) = true /\
  - / 2 < B2R (abscissa (longitude_at lon j)) < 2 ^ 54).

Lemma latitude_index j : (0 <= j - 1 < 184319 / a)%Z <-> (1 <= j)%Z /\ -90 + IZR j * B2R lat < 90.
Proof.
  rewrite (proj2 Hlat). split.
  - intros [J0 J]. split; [lia|]. apply (N_spec a Ha) in J. replace (j - 1 + 1)%Z with j in J by ring.
    apply IZR_lt in J. rewrite mult_IZR in J. lra.
  - intros [J0 J]. split; [lia|]. apply (N_spec a Ha). replace (j - 1 + 1)%Z with j by ring.
    apply lt_IZR. rewrite mult_IZR. lra.
Qed.
Lemma longitude_index j : (0 <= j < 368639 / b + 1)%Z <-> (0 <= j)%Z /\ 0 < 360 - IZR j * B2R lon.
Proof.
  rewrite (proj2 Hlon). split.
  - intros [J0 J]. split; [lia|]. apply (N_spec' b Hb) in J. apply IZR_lt in J. rewrite mult_IZR in J. lra.
  - intros [J0 J]. split; [lia|]. apply (N_spec' b Hb). apply lt_IZR. rewrite mult_IZR. lra.
Qed.

Lemma lines_drawn fuel g : make_grid samples lines (fun g => then_loop
    (latitude_lines (A := ar_double) L fuel samples lines lat ordinate g)
    (longitude_lines (A := ar_double) L fuel pro samples lines lon abscissa)) = Some (Ok g) ->
  Z.of_nat (List.length g) = (samples * lines)%Z /\
  forall k i, (0 <= k < lines)%Z -> (0 <= i < samples)%Z ->
    let on_row := exists j, (1 <= j)%Z /\ -90 + IZR j * B2R lat < 90 /\ row j = k in
    let on_column := exists j, (0 <= j)%Z /\ 0 < 360 - IZR j * B2R lon /\ col j = i in
    (on_row \/ on_column) /\ nth_error g (Z.to_nat (k * samples + i)) = Some 255%Z \/
    ~ (on_row \/ on_column) /\ nth_error g (Z.to_nat (k * samples + i)) = Some 0%Z.
Proof.
  intros H. unfold make_grid in H. set (g0 := repeat 0%Z _) in H.
  assert (W : wrap (samples * lines) = (samples * lines)%Z) by (apply wrap_id; unfold size_mod; nia).
  assert (B0 : Z.of_nat (List.length g0) = (samples * lines)%Z) by (unfold g0; rewrite repeat_length, W; nia).
  destruct (rows_drawn lat a Ha Hlat ordinate g0 B0) as (g1 & E1 & P1).
  assert (B1 : Z.of_nat (List.length g1) = (samples * lines)%Z) by (destruct P1 as [-> _]; exact B0).
  destruct (columns_drawn lon b Hb Hlon pro abscissa) with (g := g1) as (g2 & E2 & P2); [|exact B1|].
  { intros j Hj. apply longitude_index in Hj. apply Fine; tauto. }
  destruct (latitude_lines _ _ _ _ _ _ g0) as [x|] eqn:Q1; [|discriminate]. rewrite (E1 _ _ Q1) in H. cbn [then_loop] in H.
  apply E2 in H. apply Ok_inj in H. subst g2.
  assert (B2 : Z.of_nat (List.length g) = (samples * lines)%Z) by (destruct P2 as [-> _]; exact B1).
  split; [exact B2|]. intros k i Hk Hi on_row on_column.
  assert (Hq : (0 <= k * samples + i < samples * lines)%Z) by nia.
  destruct P1 as [_ P1]. destruct P2 as [_ P2]. rewrite B1 in P2. rewrite B0 in P1.
  destruct (P1 _ Hq) as [P1a P1b]. destruct (P2 _ Hq) as [P2a P2b].
  assert (Bl : nth_error g0 (Z.to_nat (k * samples + i)) = Some 0%Z).
  { unfold g0. apply nth_error_repeat. rewrite W. lia. }
  rewrite Bl in P1b.
  match type of P1a with ?X -> _ => assert (Row : X <-> on_row) end.
  { split.
    - intros (j & Hj & Hk' & Hq'). exists (j + 1)%Z. destruct (proj1 (latitude_index (j + 1))) as [J1 J2]; [lia|].
      split; [exact J1|]. split; [exact J2|]. unfold row. replace (j + 1 - 1)%Z with j by ring. nia.
    - intros (j & J1 & J2 & Ek). exists (j - 1)%Z. split; [apply latitude_index; auto|]. cbv zeta. fold (row j). rewrite Ek. lia. }
  match type of P2a with ?X -> _ => assert (Col : X <-> on_column) end.
  { split.
    - intros (j & Hj & Hi' & k' & Hk' & Hq'). exists j. destruct (proj1 (longitude_index j) Hj) as [J1 J2].
      split; [exact J1|]. split; [exact J2|]. unfold col. assert (k' = k) by nia. subst k'. lia.
    - intros (j & J1 & J2 & Ei). exists j. split; [apply longitude_index; auto|]. cbv zeta. fold (col j). rewrite Ei. split; [exact Hi|].
      exists k. lia. }
  rewrite Row in P1a, P1b. rewrite Col in P2a, P2b.
  destruct (Classical_Prop.classic on_column) as [C|C].
  - left. split; [now right|]. apply P2a, C.
  - rewrite P2b by exact C. destruct (Classical_Prop.classic on_row) as [D|D].
    + left. split; [now left|]. apply P1a, D.
    + right. split; [tauto|]. apply P1b, D.
Qed.
End Both.
End Cylinder.

(** ** The file *)
Theorem grid_written X fuel status left_over removable m c w w' r g la lo : (forall n, status n = 0%Z) -> fits_size m ->
  (mc_samples m * mc_lines m < 2 ^ 53)%Z -> mc_grid m = Some (la, lo) -> command_of X fuel m = Some c -> execute status left_over removable c w = (w', Ok r) ->
  grid_of X fuel (mc_projection m) (mc_samples m) (mc_lines m) la lo = Some g ->
  exists l h cards d, g = Ok l /\
    w_file w' = new_file [h; Hdu U8 (image_axes (mc_samples m) (mc_lines m) 1) cards d] /\
    (Z.of_nat (List.length l) = mc_samples m * mc_lines m ->
     forall k i, 0 <= k < mc_lines m -> 0 <= i < mc_samples m ->
     d (1 + k * mc_samples m + i) = option_map (existT _ U8) (nth_error l (Z.to_nat (k * mc_samples m + i))))%Z.
Proof.
  intros St (S1 & S2 & S3 & S4) Sm Gr Co Ex Gd. unfold command_of in Co.
  destruct (calls_of X _ _ _) as [calls [o| |]] eqn:Hc; try discriminate. rewrite Gr, Gd in Co. injection Co as <-.
  pose proof (execute_success _ _ _ _ _ _ _ Ex) as S. cbn [c_grid c_samples c_lines c_factories] in S.
  destruct S as (_ & p & b & t & os & maps & limits & d & _ & _ & _ & _ & _ & _ & [[N _]|(l & dg & El & W & Ew)]); [discriminate|].
  injection El as ->. exists l. eexists _, _, dg. split; [reflexivity|]. split; [exact Ew|].
  intros Len k i Hk Hi.
  assert (O : occupies dg (Z.of_nat 0 * Z.of_nat (List.length l)) (stored (t := U8) l)).
  { apply (written_all status (mc_samples m) (mc_lines m) 1 (List.length l) [stored (t := U8) l] dg St); try lia; try exact W; try reflexivity.
    - constructor; [|constructor]. unfold stored. now rewrite map_length. }
  specialize (O (Z.to_nat (k * mc_samples m + i))). unfold stored in O at 1. rewrite map_length in O.
  replace (1 + k * mc_samples m + i)%Z with (Z.of_nat 0 * Z.of_nat (List.length l) + 1 + Z.of_nat (Z.to_nat (k * mc_samples m + i)))%Z by lia.
  assert (Q : (k * mc_samples m + i < mc_samples m * mc_lines m)%Z) by nia.
  assert (Q0 : (0 <= k * mc_samples m)%Z) by nia.
  rewrite O; [unfold stored; now rewrite nth_error_map|]. apply Nat2Z.inj_lt. rewrite Z2Nat.id by lia. eapply Z.lt_le_trans; [exact Q|]. rewrite <- Len. apply Z.le_refl.
Qed.

Definition globe (samples lines : Z) (pro : bool) (lat lon : double) (ordinate abscissa : double -> double) fuel (L : libm ar_double) :=
  make_grid samples lines (fun g => then_loop
    (latitude_lines (A := ar_double) L fuel samples lines lat ordinate g)
    (longitude_lines (A := ar_double) L fuel pro samples lines lon abscissa)).

(** The simple cylindrical map of the whole body. *)
Definition at_latitude (lines : Z) (n : double) : double :=
  Bmult mode_NE (Bminus mode_NE n (double_of_Z (-90))) (Bdiv mode_NE (double_of_Z lines) (double_of_Z 180)).
Definition at_longitude (samples : Z) (m : double) : double :=
  Bmult mode_NE (Bminus mode_NE m (if flt (double_of_Z 360) (Bminus mode_NE m (double_of_Z 0)) then Bplus mode_NE (double_of_Z 0) (double_of_Z 360) else double_of_Z 0))
    (Bdiv mode_NE (double_of_Z samples) (double_of_Z 360)).
Local Ltac same := apply B2SF_inj; vm_compute; reflexivity.
Lemma whole_globe X b fuel samples lines lat lon : ieee X ->
  grid_of X fuel (SimpleCylindrical b (double_of_Z (-90)) (double_of_Z 90) (double_of_Z 0) (double_of_Z 360) false) samples lines lat lon =
  globe samples lines (prograde b) lat lon (at_latitude lines) (at_longitude samples) fuel (x_libm X).
Proof.
  intros I. unfold grid_of.
  assert (Q : simple_cyl_new (A := ar_double) (x_libm X) (x_graphic X b) (double_of_Z (-90)) (double_of_Z 90) (double_of_Z 0) (double_of_Z 360) false =
    Ok (@SimpleCyl ar_double (Bmult mode_NE (double_of_Z (-90)) d_degree) (Bmult mode_NE (double_of_Z 90) d_degree)
         (Bmult mode_NE (double_of_Z 0) d_degree) (Bmult mode_NE (double_of_Z 360) d_degree) false)).
  { unfold simple_cyl_new, boundary_latitude, validate_latitude, validate_longitude.
    rewrite (i_degree X I), (i_2pi X I), (i_eps X I), (i_tiny X I). cbn [a_isnan a_lt a_of_Z a_mul ar_double].
    match goal with |- context [if ?c then Throw _ else _] => replace c with false by (vm_compute; reflexivity) end. cbn [bind].
    match goal with |- context [if ?c then Throw _ else _] => replace c with false by (vm_compute; reflexivity) end. cbn [bind].
    match goal with |- context [if ?c then Throw _ else _] => replace c with false by (vm_compute; reflexivity) end. cbn [bind].
    match goal with |- context [if ?c then Throw _ else _] => replace c with false by (vm_compute; reflexivity) end. cbn [bind].
    match goal with |- (if ?c then _ else if ?e then _ else _) = _ =>
      replace c with false by (vm_compute; reflexivity); replace e with false by (vm_compute; reflexivity) end. reflexivity. }
  rewrite Q. unfold sc_plot_grid, globe. cbn [sc_lo_lat sc_hi_lat sc_lo_lon sc_hi_lon]. rewrite (i_degree X I).
  cbn [a_sub a_mul a_div a_of_Z a_add a_lt ar_double].
  assert (E1 : Bdiv mode_NE (Bmult mode_NE (double_of_Z (-90)) d_degree) d_degree = double_of_Z (-90)) by same.
  assert (E2 : Bdiv mode_NE (Bmult mode_NE (double_of_Z 90) d_degree) d_degree = double_of_Z 90) by same.
  assert (E3 : Bdiv mode_NE (Bmult mode_NE (double_of_Z 0) d_degree) d_degree = double_of_Z 0) by same.
  assert (E4 : Bdiv mode_NE (Bmult mode_NE (double_of_Z 360) d_degree) d_degree = double_of_Z 360) by same.
  assert (E5 : Bminus mode_NE (double_of_Z 90) (double_of_Z (-90)) = double_of_Z 180) by same.
  assert (E6 : Bminus mode_NE (double_of_Z 360) (double_of_Z 0) = double_of_Z 360) by same.
  rewrite E1, E2, E3, E4, E5, E6. reflexivity.
Qed.
Definition at_mercator X b (samples lines : Z) (n : double) : double :=
  Bplus mode_NE (Bdiv mode_NE (mercator_x (A := ar_double) (x_libm X) (x_eccentricity X b) (x_graphic X b (Bmult mode_NE n (l_degree (x_libm X)))))
    (Bmult mode_NE (Bdiv mode_NE (Bmult mode_NE (Bdiv mode_NE (double_of_Z lines) (double_of_Z samples)) (l_pi (x_libm X))) (double_of_Z lines)) (double_of_Z 2)))
    (Bdiv mode_NE (double_of_Z lines) (double_of_Z 2)).
Lemma mercator_globe X b fuel samples lines lat lon :
  grid_of X fuel (Mercator b) samples lines lat lon =
  globe samples lines (prograde b) lat lon (at_mercator X b samples lines)
    (fun m => Bdiv mode_NE (Bmult mode_NE m (double_of_Z samples)) (double_of_Z 360)) fuel (x_libm X).
Proof. reflexivity. Qed.

(** Values of both. *)
Lemma rnd_pos x : 0 <= x -> 0 <= rnd x.
Proof. intros H. apply round_ge_generic; [exact valid53'|apply valid_rnd_N|apply generic_format_0|exact H]. Qed.
Lemma scaled_near (v : double) n P : is_finite v = true -> (0 < n < 2 ^ 53)%Z -> (1 <= P <= 1000)%Z -> 0 <= B2R v <= IZR P ->
  let x := Bmult mode_NE v (Bdiv mode_NE (double_of_Z n) (double_of_Z P)) in
  is_finite x = true /\ 0 <= B2R x /\ Rabs (B2R x - IZR n * (B2R v / IZR P)) <= IZR n * 1e-15.
Proof.
  intros Fv N HP V. cbv zeta. destruct (double_of_Z_exact n ltac:(lia)) as [Fn En]. destruct (double_of_Z_exact P ltac:(lia)) as [Fp Ep].
  assert (N1 : 1 <= IZR n) by (apply IZR_le; lia). assert (P1 : 1 <= IZR P <= 1000) by (split; apply IZR_le; lia).
  assert (N2 : IZR n <= 1e16) by (apply Rle_trans with (IZR (2 ^ 53)); [apply IZR_le; lia|simpl; lra]).
  pose proof u_value as UV. pose proof u_bounds as U. pose proof eta_u as T. pose proof eta_small as [T0 _].
  set (q := IZR n / IZR P). assert (Q0 : 0 < q) by (apply Rdiv_lt_0_compat; lra).
  assert (Qn : q <= IZR n). { unfold q. apply Rmult_le_reg_r with (IZR P); [lra|]. unfold Rdiv. rewrite Rmult_assoc, Rinv_l by lra. nra. }
  assert (QP : q * IZR P = IZR n) by (unfold q; field; lra).
  destruct (div_round (double_of_Z n) (double_of_Z P) Fn) as [Fd Ed]; [lra|rewrite En, Ep; fold q; apply rnd_small with q; [apply Rabs_le; lra|lra]|].
  rewrite En, Ep in Ed. fold q in Ed. pose proof (rnd_err q q ltac:(apply Rabs_le; lra)) as Eq. rewrite <- Ed in Eq. abs Eq.
  set (d := Bdiv mode_NE _ _) in *. assert (D0 : 0 <= B2R d) by (rewrite Ed; apply rnd_pos; lra).
  assert (Vd : Rabs (B2R v * B2R d - B2R v * q) <= IZR P * (q * u + eta)).
  { rewrite <- Rmult_minus_distr_l, Rabs_mult. apply Rmult_le_compat; try apply Rabs_pos; apply Rabs_le; lra. }
  assert (Hq : B2R v * q <= IZR n) by (rewrite <- QP, (Rmult_comm q); apply Rmult_le_compat_r; lra).
  assert (Hq0 : 0 <= B2R v * q) by (apply Rmult_le_pos; lra).
  assert (B : IZR P * (q * u + eta) <= IZR n * (1.01 * u)).
  { rewrite Rmult_plus_distr_l, <- Rmult_assoc, (Rmult_comm (IZR P) q), QP. nra. }
  abs Vd.
  assert (M : Rabs (B2R v * B2R d) <= 2 * IZR n). { apply Rabs_le. nra. }
  destruct (mult_round v d Fv Fd) as [Fx Ex]; [apply rnd_small with (2 * IZR n); [exact M|lra]|].
  split; [exact Fx|]. split; [rewrite Ex; apply rnd_pos, Rmult_le_pos; lra|].
  pose proof (rnd_err _ _ M) as Em. rewrite <- Ex in Em. abs Em.
  replace (IZR n * (B2R v / IZR P)) with (B2R v * q) by (unfold q; field; lra). apply Rabs_le. nra.
Qed.
Lemma scaled_near' (v : double) n P : is_finite v = true -> (0 < n < 2 ^ 53)%Z -> (1 <= P <= 1000)%Z -> 0 <= B2R v <= IZR P ->
  let x := Bdiv mode_NE (Bmult mode_NE v (double_of_Z n)) (double_of_Z P) in
  is_finite x = true /\ 0 <= B2R x /\ Rabs (B2R x - IZR n * (B2R v / IZR P)) <= IZR n * 1e-15.
Proof.
  intros Fv N HP V. cbv zeta. destruct (double_of_Z_exact n ltac:(lia)) as [Fn En]. destruct (double_of_Z_exact P ltac:(lia)) as [Fp Ep].
  assert (N1 : 1 <= IZR n) by (apply IZR_le; lia). assert (P1 : 1 <= IZR P <= 1000) by (split; apply IZR_le; lia).
  assert (N2 : IZR n <= 1e16) by (apply Rle_trans with (IZR (2 ^ 53)); [apply IZR_le; lia|simpl; lra]).
  pose proof u_value as UV. pose proof u_bounds as U. pose proof eta_u as T. pose proof eta_small as [T0 _].
  assert (V0 : 0 <= B2R v * IZR n <= IZR P * IZR n) by (split; [apply Rmult_le_pos; lra|apply Rmult_le_compat_r; lra]).
  assert (PN : IZR P * IZR n <= 1e20) by nra.
  destruct (mult_round v (double_of_Z n) Fv Fn) as [Fm Em]; [rewrite En; apply rnd_small with (IZR P * IZR n); [apply Rabs_le; lra|lra]|].
  rewrite En in Em. pose proof (rnd_err (B2R v * IZR n) (IZR P * IZR n) ltac:(apply Rabs_le; lra)) as Eq. rewrite <- Em in Eq. abs Eq.
  set (d := Bmult mode_NE _ _) in *. assert (D0 : 0 <= B2R d) by (rewrite Em; apply rnd_pos; lra).
  assert (I0 : 0 < / IZR P) by (apply Rinv_0_lt_compat; lra). assert (I1 : IZR P * / IZR P = 1) by (apply Rinv_r; lra).
  set (q := B2R d / IZR P). assert (Q0 : 0 <= q) by (apply Rmult_le_pos; lra).
  assert (Eqq : Rabs (q - IZR n * (B2R v / IZR P)) <= IZR n * (1.01 * u)).
  { replace (q - IZR n * (B2R v / IZR P)) with ((B2R d - B2R v * IZR n) * / IZR P) by (unfold q; field; lra).
    rewrite Rabs_mult, (Rabs_pos_eq (/ _)) by lra. apply Rmult_le_reg_r with (IZR P); [lra|]. rewrite Rmult_assoc, Rinv_l, Rmult_1_r by lra.
    apply Rabs_le. nra. }
  abs Eqq.
  assert (Vn : IZR n * (B2R v / IZR P) <= IZR n).
  { rewrite <- (Rmult_1_r (IZR n)) at 2. apply Rmult_le_compat_l; [lra|]. unfold Rdiv. rewrite <- I1. apply Rmult_le_compat_r; lra. }
  assert (M : Rabs q <= 2 * IZR n). { apply Rabs_le. nra. }
  destruct (div_round d (double_of_Z P) Fm) as [Fx Ex]; [lra|rewrite Ep; fold q; apply rnd_small with (2 * IZR n); [exact M|lra]|].
  rewrite Ep in Ex. fold q in Ex. split; [exact Fx|]. split; [rewrite Ex; apply rnd_pos; lra|].
  pose proof (rnd_err _ _ M) as Ee. rewrite <- Ex in Ee. abs Ee. apply Rabs_le. nra.
Qed.

Lemma about_near x y e : Rabs (x - y) <= e -> about y e (ZnearestA x).
Proof.
  intros H. unfold about. pose proof (Znearest_half (Zle_bool 0) x) as Hh. abs H. abs Hh. apply Rabs_le. lra.
Qed.
Lemma minus_zero x a : is_1024 x a -> (Z.abs a < 2 ^ 53)%Z -> is_1024 (Bminus mode_NE x (double_of_Z 0)) a.
Proof. intros H B. replace a with (a - 1024 * 0)%Z by ring. apply minus_1024; [exact H|apply int_1024; lia|lia]. Qed.

Section Lined.
Context (X : outside) (HL : rounds_to_integer (x_libm X)) (samples lines : Z).
Context (S0 : (0 < samples)%Z) (L0 : (0 < lines)%Z) (Small : (samples * lines < 2 ^ 53)%Z).
Context (lat lon : double) (Hlat : grid_step lat) (Hlon : grid_step lon).

Lemma sizes : (samples < 2 ^ 53)%Z /\ (lines < 2 ^ 53)%Z. Proof. nia. Qed.

Lemma longitude_value j : (0 <= j)%Z -> 0 < 360 - IZR j * B2R lon ->
  exists z, is_1024 (longitude_at lon j) z /\ (0 < z <= 368640)%Z /\ IZR z / 1024 = 360 - IZR j * B2R lon.
Proof.
  destruct Hlon as (Fo & b & Hb & Eb). intros J0 J. assert (I : is_1024 lon b) by (split; assumption).
  assert (JN : (0 <= j < 368639 / b + 1)%Z) by (apply (longitude_index lon b Hb I); auto).
  exists (368640 - j * b)%Z. split; [apply (longitude_at_val lon b Hb I); lia|]. destruct JN as [_ JN]. apply (N_spec' b Hb) in JN.
  split; [nia|]. rewrite Eb, minus_IZR, mult_IZR. lra.
Qed.
Lemma latitude_value j : (1 <= j)%Z -> -90 + IZR j * B2R lat < 90 ->
  exists z, is_1024 (latitude_at lat (j - 1)) z /\ (-92160 < z < 92160)%Z /\ IZR z / 1024 = -90 + IZR j * B2R lat.
Proof.
  destruct Hlat as (Fa & a & Ha & Ea). intros J0 J. assert (I : is_1024 lat a) by (split; assumption).
  assert (JN : (0 <= j - 1 < 184319 / a)%Z) by (apply (latitude_index lat a Ha I); auto).
  exists (-92160 + (j - 1 + 1) * a)%Z. split; [apply (latitude_at_val lat a Ha I); lia|]. destruct JN as [_ JN]. apply (N_spec a Ha) in JN.
  split; [nia|]. rewrite Ea, plus_IZR, mult_IZR. replace (j - 1 + 1)%Z with j by ring. lra.
Qed.
Lemma value_1024 z : (0 < z <= 368640)%Z -> 0 <= IZR z / 1024 <= 360.
Proof. intros Z. assert (1 <= IZR z <= 368640) by (split; apply IZR_le; lia). lra. Qed.

(** Columns of both projections. *)
Lemma columns_near pro (abscissa : double -> double) :
  (forall m z, is_1024 m z -> (0 < z <= 368640)%Z ->
     is_finite (abscissa m) = true /\ 0 <= B2R (abscissa m) /\ Rabs (B2R (abscissa m) - IZR samples * (B2R m / 360)) <= IZR samples * 1e-15) ->
  (forall j, (0 <= j)%Z -> 0 < 360 - IZR j * B2R lon -> is_finite (abscissa (longitude_at lon j)) = true /\
     - / 2 < B2R (abscissa (longitude_at lon j)) < 2 ^ 54) /\
  columns_follow pro samples (B2R lon) (col samples lon pro abscissa).
Proof.
  intros H. destruct sizes as [Sm _].
  assert (N1 : 1 <= IZR samples) by (apply IZR_le; lia).
  assert (N2 : IZR samples <= 2 ^ 53). { apply Rle_trans with (IZR (2 ^ 53)); [apply IZR_le; lia|]. rewrite (pow_IZR 2 53). apply Rle_refl. }
  assert (N3 : IZR samples * 1e-15 <= 10). { assert (2 ^ 53 <= 1e16) by (simpl; lra). lra. }
  split.
  - intros j J0 J. destruct (longitude_value j J0 J) as (z & I & Z & E). destruct (H _ _ I Z) as (F & P & N). split; [exact F|].
    split; [lra|]. destruct I as [_ I]. rewrite I in N. abs N. pose proof (value_1024 z Z).
    assert (IZR samples * (IZR z / 1024 / 360) <= IZR samples).
    { rewrite <- (Rmult_1_r (IZR samples)) at 2. apply Rmult_le_compat_l; lra. }
    replace (2 ^ 54) with (2 * 2 ^ 53) by ring. assert (100 <= 2 ^ 53) by (simpl; lra). lra.
  - intros j J0 J. destruct (longitude_value j J0 J) as (z & I & Z & E). destruct (H _ _ I Z) as (F & P & N).
    destruct I as [_ I]. rewrite I, E in N. unfold col, column_of. pose proof (about_near _ _ _ N) as A. destruct pro; [|exact A].
    unfold about in *. rewrite minus_IZR. abs A. apply Rabs_le.
    replace (IZR samples * (IZR j * B2R lon / 360)) with (IZR samples - IZR samples * ((360 - IZR j * B2R lon) / 360)) by field. lra.
Qed.

Lemma at_longitude_near m z : is_1024 m z -> (0 < z <= 368640)%Z ->
  is_finite (at_longitude samples m) = true /\ 0 <= B2R (at_longitude samples m) /\
  Rabs (B2R (at_longitude samples m) - IZR samples * (B2R m / 360)) <= IZR samples * 1e-15.
Proof.
  intros I Z. unfold at_longitude. pose proof (minus_zero m z I ltac:(lia)) as M.
  rewrite (lt_1024 _ _ _ _ (int_1024 360 ltac:(lia)) M). replace (1024 * 360 <? z)%Z with false by (symmetry; apply Z.ltb_ge; lia).
  destruct M as [Fm Em]. pose proof (value_1024 z Z) as V. rewrite (proj2 I), <- Em. rewrite <- Em in V.
  apply (scaled_near _ samples 360 Fm); [pose proof sizes; lia|lia|exact V].
Qed.
Lemma mercator_longitude_near m z : is_1024 m z -> (0 < z <= 368640)%Z ->
  let x := Bdiv mode_NE (Bmult mode_NE m (double_of_Z samples)) (double_of_Z 360) in
  is_finite x = true /\ 0 <= B2R x /\ Rabs (B2R x - IZR samples * (B2R m / 360)) <= IZR samples * 1e-15.
Proof.
  intros [Fm Em] Z. pose proof (value_1024 z Z) as V. rewrite <- Em in V.
  apply (scaled_near' m samples 360 Fm); [pose proof sizes; lia|lia|exact V].
Qed.
Lemma at_latitude_near j : (1 <= j)%Z -> -90 + IZR j * B2R lat < 90 ->
  about (IZR lines * (IZR j * B2R lat / 180)) (IZR lines * 1e-15) (row lat (at_latitude lines) j).
Proof.
  intros J0 J. destruct (latitude_value j J0 J) as (z & I & Z & E). unfold row, row_of, at_latitude.
  pose proof (minus_1024 _ _ _ _ I (int_1024 (-90) ltac:(lia)) ltac:(lia)) as M. set (v := Bminus mode_NE _ _) in *.
  destruct M as [Fv Ev]. assert (Ev' : B2R v = IZR j * B2R lat). { rewrite Ev, minus_IZR, mult_IZR. lra. }
  assert (V : 0 <= B2R v <= IZR 180). { rewrite Ev'. assert (-92160 < IZR z) by (apply IZR_lt; lia). lra. }
  destruct (scaled_near v lines 180 Fv) as (F & P & N); [pose proof sizes; lia|lia|exact V|]. cbv zeta in *. rewrite F.
  rewrite <- Ev'. apply about_near. exact N.
Qed.

(** Rows of Mercator maps. *)
Lemma rel_step x Y k : 1e-20 <= Y -> 0 <= k <= 10 -> Rabs (x - Y) <= Y * (k * u) -> Rabs (rnd x - Y) <= Y * ((k + 1.1) * u).
Proof.
  intros HY K D. pose proof u_value as UV. pose proof u_bounds as U. pose proof eta_small as [T0 T].
  assert (KU : 0 <= k * u <= 1e-8) by nra.
  assert (M : Rabs x <= Y * 1.001). { replace x with ((x - Y) + Y) by ring. eapply Rle_trans; [apply Rabs_triang|]. rewrite (Rabs_pos_eq Y) by lra. nra. }
  pose proof (rnd_err _ _ M) as E. assert (eta <= Y * (0.01 * u)).
  { eapply Rle_trans; [exact T|]. apply Rle_trans with 1e-40; [|nra].
    apply Rle_trans with (/ IZR (10 ^ 40)); [|change (10 ^ 40)%Z with 10000000000000000000000000000000000000000%Z; lra].
    apply Rinv_le; [apply IZR_lt; reflexivity|]. apply IZR_le. vm_compute. discriminate. }
  replace (rnd x - Y) with ((rnd x - x) + (x - Y)) by ring. eapply Rle_trans; [apply Rabs_triang|]. nra.
Qed.
Lemma mercator_ordinate_near (x : double) : is_finite x = true -> Rabs (B2R x) <= 1000 ->
  let pix := Bmult mode_NE (Bdiv mode_NE (Bmult mode_NE (Bdiv mode_NE (double_of_Z lines) (double_of_Z samples)) d_pi)
    (double_of_Z lines)) (double_of_Z 2) in
  let middle := Bdiv mode_NE (double_of_Z lines) (double_of_Z 2) in
  let y := Bplus mode_NE (Bdiv mode_NE x pix) middle in
  is_finite pix = true /\ is_finite middle = true /\ is_finite y = true /\ Rabs (B2R y - mercator_row samples lines (B2R x)) <= (IZR lines + IZR samples * Rabs (B2R x) + 1) * 1e-14.
Proof.
  intros Fx Bx. cbv zeta. destruct sizes as [Ss Sl].
  destruct (double_of_Z_exact lines ltac:(lia)) as [Fl El]. destruct (double_of_Z_exact samples ltac:(lia)) as [Fs Es].
  destruct (double_of_Z_exact 2 ltac:(lia)) as [F2 E2]. destruct pi_val as [Fp Ep].
  assert (G : forall n, (0 < n < 2 ^ 53)%Z -> 1 <= IZR n <= 1e16).
  { intros n N. split; [apply IZR_le; lia|]. apply Rle_trans with (IZR (2 ^ 53)); [apply IZR_le; lia|simpl; lra]. }
  pose proof (G lines ltac:(lia)) as Gl. pose proof (G samples ltac:(lia)) as Gs. clear G. unfold mercator_row.
  set (l := IZR lines) in *. set (s := IZR samples) in *. set (p := B2R d_pi) in *.
  pose proof u_value as UV. pose proof u_bounds as U. pose proof eta_u as T. pose proof eta_small as [T0 _].
  assert (Is : 1e-16 <= / s <= 1). { split; [apply Rmult_le_reg_r with s; [lra|]; rewrite Rinv_l by lra; lra|]. rewrite <- Rinv_1. apply Rinv_le; lra. }
  assert (Hs : s * / s = 1) by (apply Rinv_r; lra).
  assert (RA : 1e-16 <= l * / s <= 1e16) by nra.
  destruct (div_round (double_of_Z lines) (double_of_Z samples) Fl) as [Fa Ea];
    [rewrite Es; lra|rewrite El, Es; apply rnd_small with 1e16; [apply Rabs_le; unfold Rdiv; lra|lra]|].
  rewrite El, Es in Ea. set (a := Bdiv mode_NE (double_of_Z lines) (double_of_Z samples)) in *.
  assert (Da : Rabs (B2R a - l * / s) <= (l * / s) * (1.1 * u)).
  { rewrite Ea. replace (1.1 * u) with ((0 + 1.1) * u) by lra. apply rel_step; [lra|lra|]. unfold Rdiv. rewrite Rminus_eq_0, Rabs_R0. lra. }
  assert (Db : Rabs (B2R a * p - l * / s * p) <= (l * / s * p) * (1.1 * u)).
  { rewrite <- Rmult_minus_distr_r, Rabs_mult, (Rabs_pos_eq p) by lra.
    apply Rle_trans with (l * / s * (1.1 * u) * p); [apply Rmult_le_compat_r; lra|]. apply Req_le. ring. }
  assert (RB : 1e-16 <= l * / s * p <= 4e16) by nra.
  destruct (mult_round a d_pi Fa Fp) as [Fb Eb]. { apply rnd_small with 5e16; [|lra]. fold p. abs Db. apply Rabs_le. nra. }
  set (b := Bmult mode_NE a d_pi) in *. fold p in Eb. assert (ZDb : 1e-20 <= l * / s * p) by lra. pose proof (rel_step _ _ 1.1 ZDb ltac:(lra) Db) as Db'.
  rewrite <- Eb in Db'.
  assert (Dc : Rabs (B2R b / l - p * / s) <= (p * / s) * ((1.1 + 1.1) * u)).
  { replace (B2R b / l - p * / s) with ((B2R b - l * / s * p) * / l) by (field; lra). rewrite Rabs_mult.
    assert (0 < / l) by (apply Rinv_0_lt_compat; lra). rewrite (Rabs_pos_eq (/ l)) by lra.
    apply Rle_trans with (l * / s * p * ((1.1 + 1.1) * u) * / l); [apply Rmult_le_compat_r; lra|]. apply Req_le. field. lra. }
  assert (RC : 1e-16 <= p * / s <= 4) by nra.
  destruct (div_round b (double_of_Z lines) Fb) as [Fc Ec]; [rewrite El; lra|rewrite El; apply rnd_small with 5; [abs Dc; apply Rabs_le; nra|lra]|].
  rewrite El in Ec. set (c := Bdiv mode_NE b (double_of_Z lines)) in *.
  assert (ZDc : 1e-20 <= p * / s) by lra. pose proof (rel_step _ _ (1.1 + 1.1) ZDc ltac:(lra) Dc) as Dc'. rewrite <- Ec in Dc'.
  set (P := 2 * p * / s). assert (RP : 6e-16 <= P <= 8) by (unfold P; nra).
  assert (Dd : Rabs (B2R c * 2 - P) <= P * ((1.1 + 1.1 + 1.1) * u)).
  { replace (B2R c * 2 - P) with ((B2R c - p * / s) * 2) by (unfold P; ring). rewrite Rabs_mult, (Rabs_pos_eq 2) by lra. unfold P.
    replace (2 * p * / s * ((1.1 + 1.1 + 1.1) * u)) with (p * / s * ((1.1 + 1.1 + 1.1) * u) * 2) by ring. apply Rmult_le_compat_r; lra. }
  destruct (mult_round c (double_of_Z 2) Fc F2) as [Fd Ed]; [rewrite E2; apply rnd_small with 10; [abs Dd; apply Rabs_le; nra|lra]|].
  rewrite E2 in Ed. set (d := Bmult mode_NE c (double_of_Z 2)) in *.
  assert (ZDd : 1e-20 <= P) by lra. pose proof (rel_step _ _ (1.1 + 1.1 + 1.1) ZDd ltac:(lra) Dd) as Dd'. rewrite <- Ed in Dd'.
  abs Dd'. assert (Bd : P * 0.999 <= B2R d) by nra.
  set (Q := Rabs (B2R x) / P). pose proof (Rabs_pos (B2R x)) as X0.
  assert (IP : 0 < / P) by (apply Rinv_0_lt_compat; lra).
  assert (Q0 : 0 <= Q) by (apply Rmult_le_pos; lra).
  assert (Qs : Q <= s * Rabs (B2R x) / 6).
  { unfold Q, Rdiv. replace (/ P) with (s * / (2 * p)) by (unfold P; field; lra).
    assert (/ (2 * p) <= / 6) by (apply Rinv_le; lra). rewrite <- Rmult_assoc, (Rmult_comm (Rabs _) s). apply Rmult_le_compat_l; [apply Rmult_le_pos; lra|assumption]. }
  assert (Qb : Q <= 2e18). { assert (s * Rabs (B2R x) <= 1e16 * 1000) by (apply Rmult_le_compat; lra). lra. }
  assert (Dq : Rabs (B2R x / B2R d - B2R x / P) <= Q * (4.5 * u)).
  { replace (B2R x / B2R d - B2R x / P) with (B2R x * / P * ((P - B2R d) * / B2R d)) by (field; lra).
    rewrite Rabs_mult, Rabs_mult, (Rabs_pos_eq (/ P)) by lra. fold (Rabs (B2R x) / P). fold Q. apply Rmult_le_compat_l; [exact Q0|].
    rewrite Rabs_mult. assert (0 < / B2R d) by (apply Rinv_0_lt_compat; lra). rewrite (Rabs_pos_eq (/ B2R d)) by lra.
    apply Rmult_le_reg_r with (B2R d); [lra|]. rewrite Rmult_assoc, Rinv_l, Rmult_1_r by lra.
    apply Rle_trans with (P * (4.4 * u)); [apply Rabs_le; lra|]. nra. }
  assert (Dx : Rabs (B2R x / P) = Q). { unfold Q, Rdiv. rewrite Rabs_mult, (Rabs_pos_eq (/ P)) by lra. reflexivity. }
  assert (Mq : Rabs (B2R x / B2R d) <= Q * 1.001).
  { replace (B2R x / B2R d) with ((B2R x / B2R d - B2R x / P) + B2R x / P) by ring. eapply Rle_trans; [apply Rabs_triang|]. rewrite Dx. nra. }
  destruct (div_near x d (Q * 1.001) Fx ltac:(lra) Mq ltac:(lra)) as [Fq Eq]. set (q := Bdiv mode_NE x d) in *.
  destruct (div_near (double_of_Z lines) (double_of_Z 2) l Fl) as [Fh Eh]; [rewrite E2; lra|rewrite El, E2; apply Rabs_le; lra|lra|].
  rewrite El, E2 in Eh. set (h := Bdiv mode_NE (double_of_Z lines) (double_of_Z 2)) in *.
  assert (Mh : Rabs (B2R h) <= l). { rewrite UV in Eh, T. abs Eh. apply Rabs_le. lra. }
  assert (Mq' : Rabs (B2R q) <= Q * 1.01 + 1). { rewrite UV in Eq, T. abs Mq. abs Eq. apply Rabs_le. lra. }
  assert (My : Rabs (B2R q + B2R h) <= Q * 1.01 + 1 + l). { eapply Rle_trans; [apply Rabs_triang|]. lra. }
  destruct (plus_near q h (Q * 1.01 + 1 + l) Fq Fh My ltac:(lra)) as [Fy Ey]. split; [exact Fd|]. split; [exact Fh|]. split; [exact Fy|].
  replace (l / 2 + B2R x * s / (2 * p)) with (B2R x / P + l / 2) by (unfold P; field; lra).
  rewrite UV in Ey, Eh, Eq, Dq, T. abs Ey. abs Eh. abs Eq. abs Dq. apply Rabs_le. lra.
Qed.
Lemma no_ordinate (x y z : double) : is_finite x = false -> is_finite y = true -> is_finite z = true ->
  is_finite (Bplus mode_NE (Bdiv mode_NE x y) z) = false.
Proof.
  intros Hx Hy Hz. destruct x as [s|s| |s m e H]; try discriminate Hx; destruct y as [t|t| |t m' e' H']; try discriminate Hy;
    destruct z as [v|v| |v m'' e'' H'']; try discriminate Hz; reflexivity.
Qed.
End Lined.

Lemma entry_grid X u ts cmds n e : unmixed ts -> commands_of X (texts u ts) = Ok (Some cmds) -> nth_error (maps_of ts) n = Some e ->
  exists d m b, defaults_after u = Some d /\ nth_error cmds n = Some m /\ body_spheroid (me_prograde e) (me_radii e) = Ok b /\
    grid_says d e = Some (mc_grid m) /\
    (me_projection e = T_simple_c None ->
     mc_projection m = SimpleCylindrical b (double_of_Z (-90)) (double_of_Z 90) (double_of_Z 0) (double_of_Z 360) false) /\
    (forall o, me_projection e = T_mercator o -> mc_projection m = Mercator b).
Proof.
  intros U C N. destruct (entry_command X u ts cmds n e U C N) as (d & m & b & Hd & Hm & _ & Hb & Hp & Hg & _).
  exists d, m, b. do 4 (split; [assumption|]). split.
  - intros P. rewrite P in Hp. unfold projection_of in Hp. cbn [projection_args obind] in Hp.
    match type of Hp with context [if ?c then _ else None] => destruct c; [|discriminate] end. now injection Hp as <-.
  - intros o P. rewrite P in Hp. unfold projection_of in Hp. cbn [projection_args obind] in Hp.
    destruct o; cbn [obind] in Hp;
      repeat match type of Hp with context [if ?c then _ else None] => destruct c; cbn [obind] in Hp; [|discriminate] end;
      now injection Hp as <-.
Qed.

(** A grid of [globe] in a file. *)
Lemma globe_file X fuel status left_over removable m c w w' r la lo pro ordinate abscissa :
  rounds_to_integer (x_libm X) -> (forall n, status n = 0%Z) -> fits_size m -> (mc_samples m * mc_lines m < 2 ^ 53)%Z ->
  mc_grid m = Some (la, lo) -> grid_step la -> grid_step lo ->
  command_of X fuel m = Some c -> execute status left_over removable c w = (w', Ok r) ->
  grid_of X fuel (mc_projection m) (mc_samples m) (mc_lines m) la lo = globe (mc_samples m) (mc_lines m) pro la lo ordinate abscissa fuel (x_libm X) ->
  (forall j, (0 <= j)%Z -> 0 < 360 - IZR j * B2R lo -> is_finite (abscissa (longitude_at lo j)) = true /\
     - / 2 < B2R (abscissa (longitude_at lo j)) < 2 ^ 54) ->
  exists h cards d, w_file w' = new_file [h; Hdu U8 (image_axes (mc_samples m) (mc_lines m) 1) cards d] /\
    lined (mc_samples m) (mc_lines m) (B2R la) (B2R lo) (row la ordinate) (col (mc_samples m) lo pro abscissa) d.
Proof.
  intros HL St Fs Sm Hg Sla Slo Co Ex Gd Fine. assert (Fs' := Fs). destruct Fs' as (S1 & S2 & _).
  destruct Sla as (Fa & a & Ha & Ea). destruct Slo as (Fo & b & Hb & Eb).
  destruct (grid_of X fuel (mc_projection m) (mc_samples m) (mc_lines m) la lo) as [g|] eqn:Gg.
  2: { exfalso. unfold command_of in Co. destruct (calls_of X _ _ _) as [calls [o| |]]; try discriminate. rewrite Hg, Gg in Co. discriminate. }
  destruct (grid_written X fuel status left_over removable m c w w' r g la lo St Fs Sm Hg Co Ex Gg) as (l & h & cards & d & -> & Ew & El).
  exists h, cards, d. split; [exact Ew|].
  destruct (lines_drawn (x_libm X) HL (mc_samples m) (mc_lines m) S1 S2 Sm la lo a b Ha (conj Fa Ea) Hb (conj Fo Eb) pro ordinate abscissa Fine fuel l
    (eq_sym Gd)) as [Len Dr].
  intros k i Hk Hi. rewrite (El Len k i Hk Hi). destruct (Dr k i Hk Hi) as [[D ->]|[D ->]]; [left|right]; (split; [exact D|reflexivity]).
Qed.

Lemma force_defaults u d : in_force u d -> defaults_after u = Some d.
Proof. destruct u as [u|]; cbn [in_force defaults_after]; [|now intros ->]. intros [F E]. now rewrite user_followed. Qed.

Theorem grid_in_file X fuel status left_over removable u d ts cmds n e :
  ieee X -> rounds_to_integer (x_libm X) -> (forall n, status n = 0%Z) -> in_force u d ->
  unmixed ts -> commands_of X (texts u ts) = Ok (Some cmds) -> nth_error (maps_of ts) n = Some e -> me_projection e = T_simple_c None ->
  exists m b, nth_error cmds n = Some m /\ body_spheroid (me_prograde e) (me_radii e) = Ok b /\
  forall lat lon c w w' r, grid_says d e = Some (Some (lat, lon)) -> grid_step lat -> grid_step lon ->
  fits_size m -> (mc_samples m * mc_lines m < 2 ^ 53)%Z ->
  command_of X fuel m = Some c -> execute status left_over removable c w = (w', Ok r) ->
  exists h cards dd row col, w_file w' = new_file [h; Hdu U8 (image_axes (mc_samples m) (mc_lines m) 1) cards dd] /\
    lined (mc_samples m) (mc_lines m) (B2R lat) (B2R lon) row col dd /\
    rows_follow (mc_lines m) (B2R lat) row /\ columns_follow (prograde b) (mc_samples m) (B2R lon) col.
Proof.
  intros I HL St F U C N P. destruct (entry_grid X u ts cmds n e U C N) as (d' & m & b & Hd & Hm & Hb & Hg & Hs & _).
  rewrite (force_defaults u d F) in Hd. injection Hd as <-.
  exists m, b. do 2 (split; [assumption|]). intros lat lon c w w' r Gs Sla Slo Fs Sm Co Ex.
  rewrite Hg in Gs. injection Gs as Gs. assert (Fs' := Fs). destruct Fs' as (S1 & S2 & _). specialize (Hs P).
  destruct (columns_near (mc_samples m) (mc_lines m) S1 S2 Sm lon Slo (prograde b) (at_longitude (mc_samples m))) as [Fine Cf].
  { exact (at_longitude_near (mc_samples m) (mc_lines m) S1 S2 Sm). }
  destruct (globe_file X fuel status left_over removable m c w w' r lat lon (prograde b) (at_latitude (mc_lines m)) (at_longitude (mc_samples m))
    HL St Fs Sm Gs Sla Slo Co Ex) as (h & cards & dd & Ew & Ln); [rewrite Hs; now apply whole_globe|exact Fine|].
  exists h, cards, dd. eexists _, _. split; [exact Ew|]. split; [exact Ln|]. split; [|exact Cf].
  intros j J0 J. exact (at_latitude_near (mc_samples m) (mc_lines m) S1 S2 Sm lat Sla j J0 J).
Qed.

Theorem mercator_grid_in_file X fuel status left_over removable u d ts cmds n e o :
  ieee X -> l_pi (x_libm X) = d_pi -> rounds_to_integer (x_libm X) -> (forall n, status n = 0%Z) -> in_force u d ->
  unmixed ts -> commands_of X (texts u ts) = Ok (Some cmds) -> nth_error (maps_of ts) n = Some e -> me_projection e = T_mercator o ->
  exists m b, nth_error cmds n = Some m /\ body_spheroid (me_prograde e) (me_radii e) = Ok b /\
  forall lat lon c w w' r, grid_says d e = Some (Some (lat, lon)) -> grid_step lat -> grid_step lon ->
  fits_size m -> (mc_samples m * mc_lines m < 2 ^ 53)%Z ->
  command_of X fuel m = Some c -> execute status left_over removable c w = (w', Ok r) ->
  exists h cards dd row col, w_file w' = new_file [h; Hdu U8 (image_axes (mc_samples m) (mc_lines m) 1) cards dd] /\
    lined (mc_samples m) (mc_lines m) (B2R lat) (B2R lon) row col dd /\
    rows_found (fun n => mercator_x (A := ar_double) (x_libm X) (x_eccentricity X b) (x_graphic X b (Bmult mode_NE n d_degree)))
      (mc_samples m) (mc_lines m) (B2R lat) row /\
    columns_follow (prograde b) (mc_samples m) (B2R lon) col.
Proof.
  intros I Hpi HL St F U C N P. destruct (entry_grid X u ts cmds n e U C N) as (d' & m & b & Hd & Hm & Hb & Hg & _ & Hs).
  rewrite (force_defaults u d F) in Hd. injection Hd as <-.
  exists m, b. do 2 (split; [assumption|]). intros lat lon c w w' r Gs Sla Slo Fs Sm Co Ex.
  rewrite Hg in Gs. injection Gs as Gs. assert (Fs' := Fs). destruct Fs' as (S1 & S2 & _). specialize (Hs o P).
  destruct (columns_near (mc_samples m) (mc_lines m) S1 S2 Sm lon Slo (prograde b)
    (fun m' => Bdiv mode_NE (Bmult mode_NE m' (double_of_Z (mc_samples m))) (double_of_Z 360))) as [Fine Cf].
  { exact (mercator_longitude_near (mc_samples m) (mc_lines m) S1 S2 Sm). }
  destruct (globe_file X fuel status left_over removable m c w w' r lat lon (prograde b) (at_mercator X b (mc_samples m) (mc_lines m))
    (fun m' => Bdiv mode_NE (Bmult mode_NE m' (double_of_Z (mc_samples m))) (double_of_Z 360))
    HL St Fs Sm Gs Sla Slo Co Ex) as (h & cards & dd & Ew & Ln); [rewrite Hs; apply mercator_globe|exact Fine|].
  exists h, cards, dd. eexists _, _. split; [exact Ew|]. split; [exact Ln|]. split; [|exact Cf].
  intros j J0 J. destruct (latitude_value lat Sla j J0 J) as (z & [Fz Ez] & _ & E). exists (latitude_at lat (j - 1)).
  split; [exact Fz|]. split; [now rewrite Ez|]. unfold row, at_mercator. rewrite (i_degree X I), Hpi.
  set (x := mercator_x _ _ _). change (acar ar_double) with double in x. split.
  - intros Fx. destruct (mercator_ordinate_near (mc_samples m) (mc_lines m) S1 S2 Sm (double_of_Z 0)) as (Fp & Fm & _);
      [reflexivity|rewrite (proj2 (double_of_Z_exact 0 ltac:(lia))), Rabs_R0; lra|].
    unfold row_of. now rewrite (no_ordinate _ _ _ Fx Fp Fm).
  - intros Fx Bx. destruct (mercator_ordinate_near (mc_samples m) (mc_lines m) S1 S2 Sm x Fx Bx) as (_ & _ & Fy & Ny). cbv zeta in Fy, Ny.
    unfold row_of. rewrite Fy. apply about_near. exact Ny.
Qed.

(** ** A program to run *)
From Verif Require Import RunCase_Proofs.
Definition grid_entry (prograde : bool) (p : projection_entry) (lat lon : Z) : map_entry :=
  MapEntry "map.fits" None None [] [] "Earth" (given_radii (A := ar_double) (double_of_Z 6378) (double_of_Z 6357)) prograde
    None None (Some 16%Z) None (Some (true, Some (lat_lon_interval (double_of_Z lat) (double_of_Z lon)))) p None (digit 8) (digit 4)
    (PlaneEntry None no_range T_longitude) [].
Definition grid_run (prograde : bool) (p : projection_entry) (lat lon : Z) : option (list (option Z)) :=
  match commands_of (searching the_program) (texts None [(grid_entry prograde p lat lon, [])]) with
  | Ok (Some [m]) =>
      match command_of (searching the_program) 10 m with
      | Some c =>
          match execute (fun _ => 0%Z) (fun _ _ => None) true c (World old_file 0) with
          | (w, Ok _) =>
              match w_file w with
              | new_file [_; h] => Some (map (fun z => match h_disk h z with Some (existT _ U8 v) => Some v | _ => None end) (map Z.of_nat (seq 1 32)))
              | _ => None
              end
          | _ => None
          end
      | None => None
      end
  | _ => None
  end.
