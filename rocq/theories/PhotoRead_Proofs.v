(** What reading a photo gives, with all its options. *)
From Coq Require Import List ZArith Bool Lia.
From Verif Require Import Base BaseFacts Num Utility_Model Utility_Spec Photo_Model Photo_Spec Photo_Proofs Input_Model Input_Spec Input_Proofs
  PhotoRead_Spec.
Import ListNotations.
Open Scope Z_scope.

Section Read.
Context {A : arith} {P : Type} (nan : acar A).

Lemma blend_spec (c : bilinear) (img : list A) x z datum i k bl br tl tr :
  window_ok c (Z.of_nat (length img)) -> a_size A x = Ok i -> a_size A z = Ok k -> 0 <= i -> 0 <= k ->
  i + 1 < size_mod -> k + 1 < size_mod ->
  (inside c i k ->
   znth img (k * bl_samples c + i) = Some bl /\ znth img (k * bl_samples c + i + 1) = Some br /\
   znth img ((k + 1) * bl_samples c + i) = Some tl /\ znth img ((k + 1) * bl_samples c + i + 1) = Some tr) ->
  (inside c i k /\ interpolate c img x z datum =
     Ok (match blend bl br tl tr (a_sub A x (a_of_Z A i)) (a_sub A z (a_of_Z A k)) with
         | Some w => (true, w) | None => (false, datum) end)) \/
  (~ inside c i k /\ interpolate c img x z datum = Ok (false, datum)).
Proof.
  intros W Ex Ez Hi Hk Hi' Hk' Px.
  destruct (interpolate_cases c img x z datum i k W Ex Ez Hi Hk Hi' Hk')
    as [[N E]|(B1 & B2 & B3 & B4 & bl' & br' & tl' & tr' & E1 & E2 & E3 & E4 & E)]; [right; split; assumption|].
  left. assert (I : inside c i k) by (repeat split; assumption). split; [exact I|].
  destruct (Px I) as (F1 & F2 & F3 & F4). rewrite E1 in F1. rewrite E2 in F2. rewrite E3 in F3. rewrite E4 in F4.
  injection F1 as ->. injection F2 as ->. injection F3 as ->. injection F4 as ->. rewrite E. clear.
  unfold blend, number. cbv zeta.
  destruct (negb (a_isnan A br) && negb (a_isnan A bl)), (negb (a_isnan A tr) && negb (a_isnan A tl)), (negb (a_isnan A tl) && negb (a_isnan A bl));
    reflexivity.
Qed.

Lemma finds_unique f ready n sky s l pt (r r' : found A) :
  finds (P := P) nan f ready n sky s l pt r -> finds nan f ready n sky s l pt r' -> r = r'.
Proof.
  unfold finds. destruct (g_pix ready pt) as [[v x] z]. destruct (_ || _ || _); [congruence|].
  intros (i & k & Ei & Ek & H) (i' & k' & Ei' & Ek' & H'). rewrite Ei in Ei'. rewrite Ek in Ek'. injection Ei' as <-. injection Ek' as <-.
  destruct H as [[N ->]|[I ->]], H' as [[N' ->]|[I' ->]]; tauto || reflexivity.
Qed.

Lemma judged_answer (v : A) wt (data w : A) (scan : bool) : a_isnan A data = false ->
  (if a_isnan A v then Ok (false, v, w) else if scan then Ok (true, v, a_of_Z A wt) else Ok (true, v, w)) =
  Ok (answer (judged v wt) data, if scan then snd (weighed (judged v wt) data w) else w).
Proof.
  intros N. unfold judged, number, answer, weighed. destruct (a_isnan A v); cbn [negb snd answer]; rewrite N; destruct scan; reflexivity.
Qed.

Theorem read_finds (f f' : photo_source A P) p ready n sky s l : flat_source f -> photo_make nan f = Ok (Some p, f') ->
  proper f ready n sky s l -> forall pt,
  (exists r, finds nan f ready n sky s l pt r /\ forall scan data weight,
     photo_read_w p pt scan data weight = Ok (answer r data, if scan then snd (weighed r data weight) else weight)) \/
  (forall scan data weight, (exists u, photo_read_w p pt scan data weight = UB u) \/ (exists e, photo_read_w p pt scan data weight = Throw e)) /\
  (forall r, ~ finds nan f ready n sky s l pt r).
Proof.
  intros F M [Ax Cf (g & Gm & Rd) N Nr Nb Mk] pt.
  destruct (photo_made nan f f' p F M) as (s' & l' & n' & sky' & g' & ready' & Ax' & S2 & L2 & SL & Cf' & Gm' & Rd' & _ & _ & Len & Px & New & _).
  rewrite Ax in Ax'. injection Ax' as <- <-. rewrite Cf in Cf'. injection Cf' as <- <-. rewrite Gm in Gm'. injection Gm' as <-.
  rewrite Rd in Rd'. injection Rd' as <-.
  pose proof (photo_new_inv _ _ _ _ _ _ New) as (_ & _ & _ & _ & Ep). cbn [c_nibbles c_remove_sky] in Ep.
  destruct N as (Hl & Hr & Ht & Hb). unfold is_size in *.
  assert (s < 2 ^ 62) by nia. assert (l < 2 ^ 62) by nia. assert (SM : size_mod = 2 ^ 64) by reflexivity.
  rewrite !(wrap_id (s - _)), !(wrap_id (l - _)) in Ep by lia.
  set (img := ph_image p) in *. clearbody img.
  set (strategy := if ps_interpolate f then _ else _) in Ep.
  set (mask := if sky then g_mask ready s l else []) in Ep.
  assert (Px' : forall i k, 0 <= i < s -> 0 <= k < l -> access img (k * s + i) = Ok (photo_value nan f s l i k)).
  { intros i k Hi Hk. apply (pixel_access img s l i k Hi Hk Len). rewrite Px by lia. rewrite !Z2Nat.id by lia. reflexivity. }
  assert (Pz : forall i k, 0 <= i < s -> 0 <= k < l -> znth img (k * s + i) = Some (photo_value nan f s l i k)).
  { intros i k Hi Hk. specialize (Px' i k Hi Hk). unfold access in Px'. destruct (znth img (k * s + i)); congruence. }
  unfold finds, photo_read_w. rewrite Ep.
  cbn [ph_geometry ph_samples ph_left ph_right ph_top ph_bottom ph_mask ph_image ph_config c_interp c_correct].
  destruct (g_pix ready pt) as [[vis x] z] eqn:G.
  destruct (negb vis || a_lt A x (a_of_Z A 0) || a_lt A z (a_of_Z A 0)).
  { left. exists nothing. split; [reflexivity|]. intros [|] data weight; reflexivity. }
  destruct (a_size A x) as [i | |] eqn:Ei; cbn [bind];
    [| right; split; [intros; eauto|]; intros r (? & ? & [=] & _) ..].
  destruct (a_size A z) as [k | |] eqn:Ek; cbn [bind];
    [| right; split; [intros; eauto|]; intros r (? & ? & _ & [=] & _) ..].
  assert (Win : (i <? n_left n) || (s - n_right n <=? i) || (k <? n_top n) || (l - n_bottom n <=? k) = false <-> in_window n s l i k).
  { unfold in_window. destruct (Z.ltb_spec i (n_left n)), (Z.leb_spec (s - n_right n) i), (Z.ltb_spec k (n_top n)), (Z.leb_spec (l - n_bottom n) k);
      cbn [orb]; split; intros; try discriminate; try lia; reflexivity. }
  left. destruct (_ || _ || _ || _).
  { exists nothing. split; [|intros [|] data weight; reflexivity]. exists i, k. split; [reflexivity|]. split; [reflexivity|]. left.
    split; [|reflexivity]. intros W. apply Win in W. discriminate. }
  pose proof (proj1 Win eq_refl) as W. clear Win.
  exists (if sky && negb (nth (Z.to_nat (k * s + i)) (g_mask ready s l) false) then nothing else at_pixel nan f n sky s l i k x z).
  split. { exists i, k. split; [reflexivity|]. split; [reflexivity|]. right. split; [exact W|reflexivity]. }
  intros scan data weight. assert (W' := W). unfold in_window in W'.
  assert (Gi := grid_index k s i l ltac:(lia) ltac:(lia)). rewrite wrap_id by nia.
  assert (Body : match mask with [] => Ok true | b0 :: r0 => access (b0 :: r0) (k * s + i) end
                 = Ok (negb (sky && negb (nth (Z.to_nat (k * s + i)) (g_mask ready s l) false)))).
  { unfold mask. destruct sky; [|reflexivity]. specialize (Mk eq_refl).
    destruct (g_mask ready s l) as [|m0 mr] eqn:Em; [cbn in Mk; nia|]. rewrite <- Em in *.
    destruct (access_in (g_mask ready s l) (k * s + i)) as (b & Ab & Zb); [lia|]. rewrite Ab. f_equal. cbn [andb]. rewrite negb_involutive.
    unfold znth in Zb. destruct (k * s + i <? 0); [discriminate|]. symmetry. now apply nth_error_nth. }
  rewrite Body. cbn [bind]. clear Body. destruct (sky && negb _) eqn:Sk; cbn [negb orb].
  { destruct scan; reflexivity. }
  destruct (a_isnan A data) eqn:Nd.
  { f_equal. f_equal.
    - unfold answer. destruct (at_pixel nan f n sky s l i k x z); rewrite ?Nd; reflexivity.
    - unfold weighed. cbn [snd]. destruct (at_pixel nan f n sky s l i k x z), scan; rewrite ?Nd; reflexivity. }
  rewrite (Px' i k) by lia. cbn [bind].
  set (wt := if sky then 0 else Z.min (Z.min i (s - i)) (Z.min k (l - k))).
  assert (Wt : data_weight p i k = Ok wt).
  { unfold wt. destruct sky eqn:Esky.
    - assert (Lm := Mk eq_refl).
      assert (Hm : ph_mask p = g_mask ready s l) by now rewrite Ep.
      assert (Mn : ph_mask p <> []) by (rewrite Hm; intros Q; rewrite Q in Lm; cbn in Lm; nia).
      assert (Es : ph_samples p = s) by now rewrite Ep. assert (El : ph_lines p = l) by now rewrite Ep.
      assert (E1 : ph_left p = n_left n) by now rewrite Ep. assert (E2 : ph_right p = s - n_right n) by now rewrite Ep.
      assert (E3 : ph_top p = n_top n) by now rewrite Ep. assert (E4 : ph_bottom p = l - n_bottom n) by now rewrite Ep.
      apply data_weight_mask; [exact Mn|rewrite Hm, Es, El; exact Lm|rewrite Es, El; lia|lia..|]. rewrite Hm, Es.
      destruct (access_in (g_mask ready s l) (k * s + i)) as (b & Ab & Zb); [lia|]. rewrite Ab. f_equal.
      cbn [andb] in Sk. apply negb_false_iff in Sk. rewrite <- Sk. symmetry. apply nth_error_nth.
      unfold znth in Zb. now destruct (k * s + i <? 0).
    - assert (Es : ph_samples p = s) by now rewrite Ep. assert (El : ph_lines p = l) by now rewrite Ep.
      rewrite (data_weight_nomask p i k); [now rewrite Es, El|rewrite Ep; reflexivity| | | |]; rewrite ?Es, ?El; nia. }
  assert (J : forall v, (if a_isnan A v then Ok (false, v, weight)
                         else if scan then bind (data_weight p i k) (fun w => Ok (true, v, a_of_Z A w)) else Ok (true, v, weight)) =
                        Ok (answer (judged v wt) data, if scan then snd (weighed (judged v wt) data weight) else weight)).
  { intros v. rewrite Wt. cbn [bind]. apply judged_answer. exact Nd. }
  assert (Lb : forall d : A, Ok (false, d, weight) = Ok (answer (left_behind d) data, if scan then snd (weighed (left_behind d) data weight) else weight)).
  { intros d. unfold answer, weighed. cbn [snd]. rewrite Nd. now destruct scan. }
  rewrite Ep in J. unfold at_pixel. fold wt. unfold strategy, null_correction. destruct (ps_interpolate f).
  - destruct (blend_spec (bilinear_new s l n) img x z (photo_value nan f s l i k) i k (photo_value nan f s l i k)
      (photo_value nan f s l (i + 1) k) (photo_value nan f s l i (k + 1)) (photo_value nan f s l (i + 1) (k + 1)))
      as [[In E]|[In E]]; try assumption; try lia.
    + unfold window_ok, bilinear_new. cbn [bl_samples bl_left bl_right bl_top bl_bottom]. rewrite !wrap_id by lia. rewrite Len.
      assert (Q : (l - n_bottom n) * s <= s * l) by (rewrite (Z.mul_comm s); apply Z.mul_le_mono_nonneg_r; lia).
      repeat split; lia.
    + unfold inside, bilinear_new. cbn [bl_samples bl_left bl_right bl_top bl_bottom]. rewrite !wrap_id by lia. intros I.
      rewrite <- !Z.add_assoc. rewrite !Pz by lia. auto.
    + rewrite E. cbn [bind]. unfold inside, bilinear_new in In. cbn [bl_samples bl_left bl_right bl_top bl_bottom] in In. rewrite !wrap_id in In by lia.
      replace (i + 1 + n_right n <? s) with true by (symmetry; apply Z.ltb_lt; lia).
      replace (k + 1 + n_bottom n <? l) with true by (symmetry; apply Z.ltb_lt; lia). cbn [andb].
      destruct (blend _ _ _ _ _ _) as [w|]; cbn [negb orb bind]; [apply J|apply Lb].
    + rewrite E. cbn [bind negb]. unfold inside, bilinear_new in In. cbn [bl_samples bl_left bl_right bl_top bl_bottom] in In. rewrite !wrap_id in In by lia.
      replace ((i + 1 + n_right n <? s) && (k + 1 + n_bottom n <? l)) with false; [apply Lb|].
      destruct (Z.ltb_spec (i + 1 + n_right n) s), (Z.ltb_spec (k + 1 + n_bottom n) l); cbn [andb]; try reflexivity. exfalso. apply In. lia.
  - unfold null_interpolation. cbn [bind negb orb]. apply J.
Qed.

(** ** Mosaics *)

Definition behaves (im : image A) (r : found A) : Prop := forall d, im d = Ok (answer r d).
Definition wbehaves (im : wimage A) (r : found A) : Prop := forall d w, im d w = Ok (weighed r d w).

Lemma answer_nan (r : found A) d : a_isnan A d = true -> answer r d = (false, d).
Proof. intros N. destruct r; cbn [answer]; rewrite ?N; reflexivity. Qed.

Lemma sum_loop_nan W ims rs : Forall2 behaves ims rs -> forall d s c, a_isnan A d = true -> sum_loop W ims d s c = Ok (d, s, c).
Proof.
  induction 1 as [|im r ims rs B _ IH]; intros d s c N; cbn [sum_loop]; [reflexivity|].
  rewrite (B d), answer_nan by exact N. cbn [bind]. now apply IH.
Qed.
Lemma wsum_loop_nan W ims rs : Forall2 wbehaves ims rs -> forall d s t c, a_isnan A d = true -> wsum_loop W ims d s t c = Ok (d, s, t, c).
Proof.
  induction 1 as [|im r ims rs B _ IH]; intros d s t c N; cbn [wsum_loop]; [reflexivity|].
  rewrite (B d). unfold weighed. rewrite answer_nan by exact N. cbn [bind]. now apply IH.
Qed.

Definition or_data (o : option A) (d : A) : A := match o with Some d' => d' | None => d end.

Lemma datum_number f ready n sky s l pt v w : finds (P := P) nan f ready n sky s l pt (datum v w) -> a_isnan A v = false.
Proof.
  unfold finds. destruct (g_pix ready pt) as [[vis x] z]. destruct (_ || _ || _); [discriminate|].
  intros (i & k & _ & _ & [[_ H]|[_ H]]); [discriminate|]. destruct (sky && _); [discriminate|].
  unfold at_pixel, judged, number in H. destruct (ps_interpolate f).
  - destruct (_ && _); [|discriminate]. destruct (blend _ _ _ _ _ _) as [b|]; [|discriminate].
    destruct (a_isnan A b) eqn:E; cbn [negb] in H; [discriminate|]. injection H as -> _. exact E.
  - destruct (a_isnan A _) eqn:E in H; cbn [negb] in H; [discriminate|]. injection H as -> _. exact E.
Qed.

(** A datum is a number. *)
Definition numeric (r : found A) : Prop := match r with datum v _ => a_isnan A v = false | _ => True end.

Lemma sum_loop_found W ims rs : Forall2 behaves ims rs -> Forall numeric rs -> forall d s c, a_isnan A d = false ->
  sum_loop W ims d s c =
  Ok (or_data (last_put (heard rs)) d, fold_left (a_add (w_arith W)) (map (w_widen W) (map fst (data_of (heard rs)))) s,
      c + Z.of_nat (length (data_of (heard rs)))).
Proof.
  induction 1 as [|im r ims rs B T IH]; intros Nu d s c N; cbn [sum_loop].
  - cbn. now rewrite Z.add_0_r.
  - apply Forall_cons_iff in Nu. destruct Nu as [N1 Nu]. rewrite (B d). destruct r as [|d'|v w]; cbn [answer].
    + cbn [bind]. rewrite IH by assumption. cbn [heard last_put data_of flat_map app]. destruct (last_put (heard rs)); reflexivity.
    + rewrite N. cbn [bind]. cbn [heard]. destruct (a_isnan A d') eqn:N'.
      * rewrite (sum_loop_nan W ims rs T) by exact N'. cbn. now rewrite Z.add_0_r.
      * rewrite IH by assumption. cbn [last_put data_of flat_map app]. destruct (last_put (heard rs)); reflexivity.
    + rewrite N. cbn [bind]. rewrite IH by assumption. cbn [heard last_put data_of flat_map app map fst fold_left length].
      f_equal. f_equal; [f_equal; destruct (last_put (heard rs)); reflexivity|]. unfold data_of. lia.
Qed.
Lemma wsum_loop_found W ims rs : Forall2 wbehaves ims rs -> Forall numeric rs -> forall d s t c, a_isnan A d = false ->
  wsum_loop W ims d s t c =
  Ok (or_data (last_put (heard rs)) d,
      fold_left (a_add (w_arith W)) (map (w_widen W) (map (fun p => a_mul A (a_of_Z A (snd p)) (fst p)) (data_of (heard rs)))) s,
      fold_left (a_add (w_arith W)) (map (w_widen W) (map (fun p => a_of_Z A (snd p)) (data_of (heard rs)))) t,
      c + Z.of_nat (length (data_of (heard rs)))).
Proof.
  induction 1 as [|im r ims rs B T IH]; intros Nu d s t c N; cbn [wsum_loop].
  - cbn. now rewrite Z.add_0_r.
  - apply Forall_cons_iff in Nu. destruct Nu as [N1 Nu]. rewrite (B d). unfold weighed. destruct r as [|d'|v w]; cbn [answer].
    + cbn [bind]. rewrite IH by assumption. cbn [heard last_put data_of flat_map app]. destruct (last_put (heard rs)); reflexivity.
    + rewrite N. cbn [bind]. cbn [heard]. destruct (a_isnan A d') eqn:N'.
      * rewrite (wsum_loop_nan W ims rs T) by exact N'. cbn. now rewrite Z.add_0_r.
      * rewrite IH by assumption. cbn [last_put data_of flat_map app]. destruct (last_put (heard rs)); reflexivity.
    + rewrite N. cbn [bind]. rewrite IH by assumption. cbn [heard last_put data_of flat_map app map fst snd fold_left length].
      apply f_equal. apply f_equal2; [apply f_equal2; [apply f_equal2; [destruct (last_put (heard rs)); reflexivity|reflexivity]|reflexivity]|].
      unfold data_of. lia.
Qed.

Lemma put_data rs : data_of (heard rs) <> [] -> exists x : A, last_put (heard rs) = Some x.
Proof.
  induction rs as [|r rs IH]; intros H; [now cbn in H|]. destruct r as [|d|v w]; cbn [heard last_put data_of flat_map app] in *.
  - destruct (IH H) as [x ->]. eauto.
  - destruct (a_isnan A d); [now cbn in H|]. destruct (last_put _); eauto.
  - destruct (last_put _); eauto.
Qed.

Lemma unweighted_found W ims rs d : Forall2 behaves ims rs -> Forall numeric rs -> a_isnan A d = false ->
  exists y, mosaic_read (unweighted_average W ims) d = Ok (match average_of_found W rs with Some _ => true | None => false end, y) /\
    forall x, average_of_found W rs = Some x -> y = x.
Proof.
  intros B Nu N. unfold mosaic_read, unweighted_average. rewrite (sum_loop_found W ims rs B Nu) by exact N. cbn [bind fst snd].
  rewrite Z.add_0_l. unfold average_of_found, long_sum. assert (P1 := put_data rs).
  destruct (data_of (heard rs)) as [|a [|b ds]]; cbn [length].
  - eexists. split; [reflexivity|]. discriminate.
  - destruct (P1 ltac:(discriminate)) as [x ->]. eexists. split; [reflexivity|]. intros ? [= <-]. reflexivity.
  - replace (0 <? _) with true by (symmetry; apply Z.ltb_lt; lia). replace (1 <? _) with true by (symmetry; apply Z.ltb_lt; lia).
    eexists. split; [reflexivity|]. intros ? [= <-]. reflexivity.
Qed.
Lemma weighted_found W ims rs d : Forall2 wbehaves ims rs -> Forall numeric rs -> a_isnan A d = false ->
  exists y, mosaic_read (weighted_average W ims) d = Ok (match weighted_of_found W rs with Some _ => true | None => false end, y) /\
    forall x, weighted_of_found W rs = Some x -> y = x.
Proof.
  intros B Nu N. unfold mosaic_read, weighted_average. rewrite (wsum_loop_found W ims rs B Nu) by exact N. cbn [bind fst snd].
  rewrite Z.add_0_l. unfold weighted_of_found, long_sum. assert (P1 := put_data rs).
  destruct (data_of (heard rs)) as [|a [|b ds]]; cbn [length].
  - eexists. split; [reflexivity|]. discriminate.
  - destruct (P1 ltac:(discriminate)) as [x ->]. eexists. split; [reflexivity|]. intros ? [= <-]. reflexivity.
  - replace (0 <? _) with true by (symmetry; apply Z.ltb_lt; lia). replace (1 <? _) with true by (symmetry; apply Z.ltb_lt; lia).
    destruct (P1 ltac:(discriminate)) as [x ->]. cbn [andb or_data].
    destruct (a_lt _ _ _); eexists; (split; [reflexivity|]); intros ? [= <-]; reflexivity.
Qed.

Lemma clean_heard rs : Forall (fun r : found A => forall d, r <> left_behind d) rs -> heard rs = rs.
Proof.
  induction 1 as [|r rs N _ IH]; [reflexivity|]. destruct r as [|d|v w]; cbn [heard]; rewrite ?IH; try reflexivity. now destruct (N d).
Qed.
Lemma clean_put rs : Forall (fun r : found A => forall d, r <> left_behind d) rs -> last_put rs = option_map fst (List.last (map Some (data_of rs)) None).
Proof.
  induction 1 as [|r rs N _ IH]; [reflexivity|]. destruct r as [|d|v w]; cbn [last_put data_of flat_map app map].
  - rewrite IH. destruct (List.last _ _) as [[]|]; reflexivity.
  - now destruct (N d).
  - rewrite IH. unfold data_of. destruct (flat_map _ rs) as [|p l]; [reflexivity|]. cbn [map].
    assert (E : forall (q : option (A * Z)) l p, exists y, List.last (Some p :: map Some l) q = Some y).
    { clear. intros q l. induction l as [|a l IH]; intros p; [eexists; reflexivity|]. cbn [map]. destruct (IH a) as [y Hy]. exists y. exact Hy. }
    destruct (E None l p) as [y Hy]. rewrite Hy. cbn [option_map]. change (List.last (Some (v, w) :: Some p :: map Some l) None) with (List.last (Some p :: map Some l) None).
    rewrite Hy. reflexivity.
Qed.
Theorem clean_averages (W : wide A) (rs : list (found A)) : Forall (fun r => forall d, r <> left_behind d) rs ->
  (data_of rs = [] -> average_of_found W rs = None /\ weighted_of_found W rs = None) /\
  (forall v w, data_of rs = [(v, w)] -> average_of_found W rs = Some v /\ weighted_of_found W rs = Some v) /\
  ((1 < length (data_of rs))%nat ->
   average_of_found W rs =
     Some (w_narrow W (a_div (w_arith W) (long_sum W (map fst (data_of rs))) (a_of_Z (w_arith W) (Z.of_nat (length (data_of rs))))))) /\
  ((1 < length (data_of rs))%nat ->
   let weights := long_sum W (map (fun d => a_of_Z A (snd d)) (data_of rs)) in
   a_lt (w_arith W) (a_of_Z (w_arith W) 0) weights = true ->
   weighted_of_found W rs =
     Some (w_narrow W (a_div (w_arith W) (long_sum W (map (fun d => a_mul A (a_of_Z A (snd d)) (fst d)) (data_of rs))) weights))).
Proof.
  intros C. unfold average_of_found, weighted_of_found. rewrite (clean_heard rs C), (clean_put rs C).
  destruct (data_of rs) as [|a [|b l]]; cbn [length].
  - split; [auto|]. split; [discriminate|]. split; intros; lia.
  - split; [discriminate|]. split; [intros v w [= ->]; auto|]. split; intros; lia.
  - split; [discriminate|]. split; [discriminate|]. split; [reflexivity|]. intros _. cbv zeta. intros ->. reflexivity.
Qed.

(** Images that have something ([has]), and images that never come back with an
    answer where they have nothing defined. *)
Section Composed.
Context {I : Type} (has : I -> found A -> Prop) (im : I -> image A) (wim : I -> wimage A).
Context (unique : forall i r r', has i r -> has i r' -> r = r').
Definition known (i : I) : Prop :=
  (exists r, has i r /\ numeric r /\ behaves (im i) r /\ wbehaves (wim i) r) \/
  ((forall d x, im i d <> Ok x) /\ (forall d w x, wim i d w <> Ok x) /\ forall r, ~ has i r).

Lemma first_found l d x : Forall known l -> a_isnan A d = false ->
  (mosaic_read (first_read (map im l)) d = Ok (true, x) <->
   exists before i after rs w, l = before ++ i :: after /\ Forall2 has before rs /\ Forall silent rs /\ has i (datum x w)).
Proof.
  unfold mosaic_read. intros K. revert d. induction K as [|i l [(r & Hr & Nu & B & _)|(St & _ & No)] K IH]; intros d N; cbn [map first_read].
  - cbn [bind fst snd]. split; [discriminate|]. intros (b & i & a & rs & w & E & _). destruct b; discriminate.
  - rewrite (B d).
    assert (Cons : forall b i' a rs w, i :: l = b ++ i' :: a -> Forall2 has b rs -> Forall silent rs -> has i' (datum x w) ->
      (r = datum x w) \/ (silent r /\ exists b' rs', l = b' ++ i' :: a /\ Forall2 has b' rs' /\ Forall silent rs')).
    { intros b i' a rs w E F2 Si Hd. destruct b as [|j b]; cbn [app] in E; injection E as <- ->.
      - left. exact (unique _ _ _ Hr Hd).
      - right. inversion F2 as [|? r' ? rs' Hr' F2' E1 E2]; subst. inversion Si as [|? ? S1 S2]; subst.
        rewrite (unique _ _ _ Hr Hr'). split; [exact S1|]. exists b, rs'. auto. }
    destruct r as [|d'|v w']; cbn [answer].
    + cbn [bind]. rewrite (IH d N). split.
      * intros (b & i' & a & rs & w & -> & F2 & Si & Hd). exists (i :: b), i', a, (nothing :: rs), w.
        split; [reflexivity|]. split; [constructor; assumption|]. split; [constructor; [exact Logic.I|assumption]|exact Hd].
      * intros (b & i' & a & rs & w & E & F2 & Si & Hd). destruct (Cons _ _ _ _ _ E F2 Si Hd) as [Q|(_ & b' & rs' & -> & F2' & Si')]; [discriminate|].
        exists b', i', a, rs', w. auto.
    + rewrite N. cbn [bind]. destruct (a_isnan A d') eqn:N'.
      * split.
        -- intros Q. exfalso. revert Q. clear - K N'. induction K as [|j l [(r & _ & _ & B & _)|(St & _)] K IH]; cbn [map first_read].
           ++ discriminate.
           ++ rewrite (B d'), answer_nan by exact N'. exact IH.
           ++ destruct (im j d') eqn:E; [now apply St in E|discriminate|discriminate].
        -- intros (b & i' & a & rs & w & E & F2 & Si & Hd). destruct (Cons _ _ _ _ _ E F2 Si Hd) as [Q|(Q & _)]; [discriminate|].
           cbn [silent] in Q. congruence.
      * rewrite (IH d' N'). split.
        -- intros (b & i' & a & rs & w & -> & F2 & Si & Hd). exists (i :: b), i', a, (left_behind d' :: rs), w.
           split; [reflexivity|]. split; [constructor; assumption|]. split; [constructor; [exact N'|assumption]|exact Hd].
        -- intros (b & i' & a & rs & w & E & F2 & Si & Hd). destruct (Cons _ _ _ _ _ E F2 Si Hd) as [Q|(_ & b' & rs' & -> & F2' & Si')]; [discriminate|].
           exists b', i', a, rs', w. auto.
    + rewrite N. cbn [bind fst snd]. change (0 <? 1) with true. split.
      * intros [= <-]. exists [], i, l, [], w'. repeat (split; [constructor|]). exact Hr.
      * intros (b & i' & a & rs & w & E & F2 & Si & Hd). destruct (Cons _ _ _ _ _ E F2 Si Hd) as [[= -> _]|(Q & _)]; [reflexivity|destruct Q].
  - split.
    + destruct (im i d) eqn:E; [now apply St in E|discriminate|discriminate].
    + intros (b & i' & a & rs & w & E & F2 & _ & Hd). destruct b as [|j b]; injection E as <- ->; [now apply No in Hd|].
      inversion F2 as [|? r' ? rs' Hr' F2' E1 E2]; subst. now apply No in Hr'.
Qed.

Lemma all_or_stuck l : Forall known l ->
  (exists rs, Forall2 has l rs /\ Forall numeric rs /\ Forall2 behaves (map im l) rs /\ Forall2 wbehaves (map wim l) rs) \/
  ((forall W d s c x, sum_loop W (map im l) d s c <> Ok x) /\ (forall W d s t c x, wsum_loop W (map wim l) d s t c <> Ok x) /\
   forall rs, ~ Forall2 has l rs).
Proof.
  induction 1 as [|i l [(r & Hr & Nu & B & Wb)|(St & Ws & No)] K IH].
  - left. exists []. repeat split; constructor.
  - destruct IH as [(rs & H1 & H2 & H3 & H4)|(S1 & S2 & S3)].
    + left. exists (r :: rs). repeat split; constructor; assumption.
    + right. split; [|split].
      * intros W d s c x. cbn [map sum_loop]. rewrite (B d). cbn [bind]. destruct (answer r d) as [[|] d']; apply S1.
      * intros W d s t c x. cbn [map wsum_loop]. rewrite (Wb d). cbn [bind]. destruct (weighed _ _ _) as [[[|] d'] w']; apply S2.
      * intros rs F2. inversion F2; subst. eapply S3. eassumption.
  - right. split; [|split].
    + intros W d s c x. cbn [map sum_loop]. destruct (im i d) eqn:E; [now apply St in E|discriminate|discriminate].
    + intros W d s t c x. cbn [map wsum_loop]. destruct (wim i d (a_of_Z A 1)) eqn:E; [now apply Ws in E|discriminate|discriminate].
    + intros rs F2. inversion F2; subst. eapply No. eassumption.
Qed.
Lemma all_unique l rs : Forall2 has l rs -> forall rs', Forall2 has l rs' -> rs = rs'.
Proof.
  induction 1 as [|i r l rs H _ IH]; intros rs' F; inversion F; subst; [reflexivity|]. f_equal; [eapply unique; eassumption|]. now apply IH.
Qed.

Lemma unweighted_composed W l d x : Forall known l -> a_isnan A d = false ->
  (mosaic_read (unweighted_average W (map im l)) d = Ok (true, x) <-> exists rs, Forall2 has l rs /\ average_of_found W rs = Some x).
Proof.
  intros K N. destruct (all_or_stuck l K) as [(rs & H1 & H2 & H3 & _)|(St & _ & No)].
  - destruct (unweighted_found W _ _ d H3 H2 N) as (y & -> & Y). split.
    + intros Q. exists rs. split; [exact H1|]. destruct (average_of_found W rs) as [z|]; [|discriminate]. injection Q as <-. now rewrite (Y z eq_refl).
    + intros (rs' & F & Q). rewrite (all_unique _ _ F _ H1) in Q. rewrite Q. now rewrite (Y x Q).
  - split.
    + unfold mosaic_read, unweighted_average. destruct (sum_loop _ _ _ _ _) eqn:E; [now apply St in E|discriminate|discriminate].
    + intros (rs' & F & _). now apply No in F.
Qed.
Lemma weighted_composed W l d x : Forall known l -> a_isnan A d = false ->
  (mosaic_read (weighted_average W (map wim l)) d = Ok (true, x) <-> exists rs, Forall2 has l rs /\ weighted_of_found W rs = Some x).
Proof.
  intros K N. destruct (all_or_stuck l K) as [(rs & H1 & H2 & _ & H3)|(_ & St & No)].
  - destruct (weighted_found W _ _ d H3 H2 N) as (y & -> & Y). split.
    + intros Q. exists rs. split; [exact H1|]. destruct (weighted_of_found W rs) as [z|]; [|discriminate]. injection Q as <-. now rewrite (Y z eq_refl).
    + intros (rs' & F & Q). rewrite (all_unique _ _ F _ H1) in Q. rewrite Q. now rewrite (Y x Q).
  - split.
    + unfold mosaic_read, weighted_average. destruct (wsum_loop _ _ _ _ _ _) eqn:E; [now apply St in E|discriminate|discriminate].
    + intros (rs' & F & _). now apply No in F.
Qed.
End Composed.
End Read.
