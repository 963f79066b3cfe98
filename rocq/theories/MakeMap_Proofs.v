(** Proofs about map making. *)
From Coq Require Import List ZArith Bool Reals Lra Lia.
From Flocq Require Import Core BinarySingleNaN.
From Verif Require Import Base BaseFacts Flt FltFacts Extrema_Model Extrema_Spec Extrema_Proofs.
From Verif Require Import MakeMap_Model MakeMap_Spec.
Import ListNotations.
Open Scope R_scope.

(** ** Limits *)

Lemma in_type_of_range t (a : ct t) x :
  tval t a = Some x -> type_low t <= x <= type_high t -> in_type t a.
Proof.
  intros E [H1 H2].
  destruct t; cbn [ct int_ctype carrier tval in_type type_low type_high] in *; try exact I;
    injection E as <-; split; apply le_IZR; assumption.
Qed.

Lemma generic_double_val (d : double) x : dval d = Some x ->
  - inf_val 1024 < x < inf_val 1024 -> generic_format radix2 (SpecFloat.fexp 53 1024) x.
Proof.
  intros D B. apply dval_fval in D as [N E].
  rewrite <- E in B. pose proof (fval_finite_inv d N B) as F.
  rewrite <- E, fval_finite by exact F. apply generic_format_B2R.
Qed.

Lemma representable_exact t (a : ct t) x :
  tval t a = Some x -> type_low t <= x <= type_high t -> (exists d, dval d = Some x) ->
  dval (c_to_double (ct t) a) = Some x.
Proof.
  intros E R1 [d D].
  destruct t; try (rewrite <- E; apply cval_exact; [discriminate|eapply in_type_of_range; eauto]).
  cbn [ct int_ctype carrier tval type_low type_high c_to_double] in *. injection E as <-.
  destruct R1 as [R1 R2]. apply le_IZR in R1, R2.
  destruct (double_of_Z_round a ltac:(lia)) as [F V].
  unfold dval. rewrite (finite_not_nan _ F), fval_finite by exact F. rewrite V. f_equal.
  apply round_generic; [apply valid_rnd_N|]. eapply generic_double_val; [exact D|].
  apply pow_1024_big. lia.
Qed.

Lemma converted_id t (a : ct t) x :
  tval t a = Some x -> type_low t <= x <= type_high t -> converted t x = x.
Proof.
  intros E R1. destruct t; cbn [ct int_ctype float_ctype carrier tval converted type_low type_high] in *;
    try (injection E as <-; now rewrite Ztrunc_IZR); [|reflexivity].
  destruct (is_nan a) eqn:N; [discriminate|]. injection E as <-.
  assert (B : - inf_val 128 < fval a < inf_val 128).
  { pose proof FLT_MAX_lt_inf. change (inf_val 128) with (inf_val 1024). lra. }
  pose proof (fval_finite_inv a N B) as F. rewrite fval_finite by exact F.
  apply round_generic; [apply valid_rnd_N|]. exact (generic_format_B2R 24 128 a).
Qed.

Lemma clip_id t x : type_low t <= x <= type_high t -> clip_low t x = x /\ clip_high t x = x.
Proof.
  intros [H1 H2]. destruct t; cbn [clip_low clip_high]; auto;
    (split; [apply Rmax_left|apply Rmin_left]; assumption).
Qed.

Lemma double_max_val : dval double_max = Some (highest_val F64).
Proof.
  assert (A : F2R (Float radix2 (2 ^ 53 - 1) 971) = highest_val F64).
  { change (highest_val F64) with (IZR ((2 ^ 53 - 1) * 2 ^ 971)). unfold F2R; cbn [Fnum Fexp].
    rewrite mult_IZR. f_equal. }
  destruct (normalize_exact 53 1024 prec53 emax53 (2 ^ 53 - 1) 971 false) as [F E].
  - apply generic_format_FLT. exists (Float radix2 (2 ^ 53 - 1) 971); [reflexivity|reflexivity|].
    cbn. unfold SpecFloat.emin. lia.
  - rewrite A. unfold highest_val. rewrite <- abs_IZR.
    change (bpow radix2 1024) with (IZR (Z.pow_pos 2 1024)). apply IZR_lt. reflexivity.
  - unfold dval, double_max, dlit. rewrite (finite_not_nan _ F), fval_finite by exact F. now rewrite E, A.
Qed.

Lemma double_lowest_val : dval double_lowest = Some (lowest_val F64).
Proof.
  assert (A : F2R (Float radix2 (- (2 ^ 53 - 1)) 971) = lowest_val F64).
  { change (lowest_val F64) with (IZR (- ((2 ^ 53 - 1) * 2 ^ 971))). unfold F2R; cbn [Fnum Fexp].
    rewrite !opp_IZR, mult_IZR.
    rewrite <- Ropp_mult_distr_l. do 2 f_equal. }
  destruct (normalize_exact 53 1024 prec53 emax53 (- (2 ^ 53 - 1)) 971 false) as [F E].
  - apply generic_format_FLT. exists (Float radix2 (- (2 ^ 53 - 1)) 971); [reflexivity|reflexivity|].
    cbn. unfold SpecFloat.emin. lia.
  - rewrite A. unfold lowest_val. rewrite <- abs_IZR.
    change (bpow radix2 1024) with (IZR (Z.pow_pos 2 1024)). apply IZR_lt. reflexivity.
  - unfold dval, double_lowest, dlit. rewrite (finite_not_nan _ F), fval_finite by exact F. now rewrite E, A.
Qed.

Lemma float_lim : tval F32 float_lowest = Some (- FLT_MAX) /\ tval F32 float_max = Some FLT_MAX.
Proof.
  destruct float_lowest_val as [F E]. destruct float_max_val as [F' E'].
  cbn [tval]. rewrite (finite_not_nan _ F), (finite_not_nan _ F'), !fval_finite by assumption.
  now rewrite E, E'.
Qed.

Lemma lowest_in_range t :
  tval t (c_lowest (ct t)) = Some (lowest_val t) /\
  type_low t <= lowest_val t <= type_high t /\ dval (c_to_double (ct t) (c_lowest (ct t))) = Some (lowest_val t).
Proof.
  pose proof (type_low_le_high t) as LH.
  destruct t; (split; [|split]);
    cbn [ct int_ctype float_ctype double_ctype tval c_lowest c_to_double lowest_val type_low type_high] in *;
    try reflexivity; try (split; [apply Rle_refl|assumption]).
  - apply double_of_Z_val; lia.
  - apply double_of_Z_val; lia.
  - apply double_of_Z_val64.
  - apply float_lim.
  - apply dval_float_lowest.
  - exact double_lowest_val.
  - split; apply IZR_le; vm_compute; discriminate.
  - exact double_lowest_val.
Qed.

Lemma highest_in_range t :
  tval t (c_max (ct t)) = Some (highest_val t) /\
  type_low t <= highest_val t <= type_high t /\
  (t <> I64 -> dval (c_to_double (ct t) (c_max (ct t))) = Some (highest_val t)).
Proof.
  pose proof (type_low_le_high t) as LH.
  destruct t; (split; [|split; [|intros NI]]);
    cbn [ct int_ctype float_ctype double_ctype tval c_max c_to_double highest_val type_low type_high] in *;
    try reflexivity; try (split; [assumption|apply Rle_refl]).
  - apply double_of_Z_val; lia.
  - apply double_of_Z_val; lia.
  - apply double_of_Z_val; lia.
  - congruence.
  - apply float_lim.
  - apply dval_float_max.
  - exact double_max_val.
  - split; apply IZR_le; vm_compute; discriminate.
  - exact double_max_val.
Qed.

Lemma limit_bound t (o : option (ct t)) (c : ct t) x d0 :
  tval t c = Some d0 -> type_low t <= d0 <= type_high t ->
  (o = None -> dval (c_to_double (ct t) c) = Some d0) ->
  limit_value t o d0 x ->
  let m := match o with Some a => a | None => c end in
  tval t m = Some x /\ type_low t <= x <= type_high t /\ dval (c_to_double (ct t) m) = Some x.
Proof.
  intros C R0 D0 L. destruct o as [a|]; cbn [limit_value] in L.
  - destruct L as (A & B & D). repeat split; try tauto. now apply representable_exact.
  - subst x. auto.
Qed.

Lemma get_extrema_ok t (e : extrema (ct t)) lo hi :
  limits t e lo hi -> lo <= hi ->
  exists a b, get_extrema e = Ok (Extrema (Some a) (Some b)) /\
    dval (c_to_double (ct t) a) = Some lo /\ dval (c_to_double (ct t) b) = Some hi /\
    type_low t <= lo /\ hi <= type_high t.
Proof.
  intros (L1 & L2 & H64) LE.
  destruct (lowest_in_range t) as (A1 & A2 & A3).
  destruct (highest_in_range t) as (B1 & B2 & B3).
  destruct (limit_bound t (e_min e) (c_lowest (ct t)) lo _ A1 A2 (fun _ => A3) L1) as (M1 & M2 & M3).
  destruct (limit_bound t (e_max e) (c_max (ct t)) hi _ B1 B2) as (N1 & N2 & N3).
  { intros Hn. apply B3. intros Ht. now apply H64. } { exact L2. }
  unfold get_extrema.
  set (mn := match e_min e with Some a => a | None => c_lowest (ct t) end) in *.
  set (mx := match e_max e with Some a => a | None => c_max (ct t) end) in *.
  destruct (ex_make_ok t (c_to_double (ct t) mn) (c_to_double (ct t) mx) lo hi M3 N3)
    as (a & b & Ia & Ib & Va & Vb & Ok1 & _); try tauto.
  destruct (clip_id t lo M2) as [C1 _]. destruct (clip_id t hi N2) as [_ C2].
  rewrite C1, (converted_id t mn lo M1 M2) in *.
  rewrite C2, (converted_id t mx hi N1 N2) in *.
  exists a, b. split; [now apply Ok1|].
  split; [|split; [|tauto]]; apply representable_exact; eauto.
Qed.

Lemma get_extrema_crossed t (e : extrema (ct t)) lo hi :
  limits t e lo hi -> hi < lo -> get_extrema e = Throw invalid_argument.
Proof.
  intros (L1 & L2 & H64) LE.
  destruct (lowest_in_range t) as (A1 & A2 & A3).
  destruct (highest_in_range t) as (B1 & B2 & B3).
  destruct (limit_bound t (e_min e) (c_lowest (ct t)) lo _ A1 A2 (fun _ => A3) L1) as (M1 & M2 & M3).
  destruct (limit_bound t (e_max e) (c_max (ct t)) hi _ B1 B2) as (N1 & N2 & N3).
  { intros Hn. apply B3. intros Ht. now apply H64. } { exact L2. }
  unfold get_extrema.
  set (mn := match e_min e with Some a => a | None => c_lowest (ct t) end) in *.
  set (mx := match e_max e with Some a => a | None => c_max (ct t) end) in *.
  destruct (ex_make_ok t (c_to_double (ct t) mn) (c_to_double (ct t) mx) lo hi M3 N3)
    as (a & b & Ia & Ib & Va & Vb & _ & Th); try tauto.
  destruct (clip_id t lo M2) as [C1 _]. destruct (clip_id t hi N2) as [_ C2].
  rewrite C1, (converted_id t mn lo M1 M2) in *.
  rewrite C2, (converted_id t mx hi N1 N2) in *. auto.
Qed.

Lemma in_range_within t (a b : ct t) lo hi d :
  dval (c_to_double (ct t) a) = Some lo -> dval (c_to_double (ct t) b) = Some hi ->
  (in_range (Extrema (Some a) (Some b)) d = true <-> within lo hi d).
Proof.
  intros A B. unfold in_range, within; cbn [e_min e_max]. rewrite andb_true_iff, !fle_dval.
  split.
  - intros [(p & q & E1 & E2 & L1) (p' & q' & E3 & E4 & L2)].
    exists q. split; [exact E2|]. assert (p = lo) by congruence.
    assert (q' = hi) by congruence. assert (p' = q) by congruence. subst. lra.
  - intros (x & E & L1 & L2). split; [exists lo, x|exists x, hi]; auto.
Qed.

(** ** Plotting *)

Lemma wrap_small z : (0 <= z < 2 ^ 64)%Z -> wrap z = z.
Proof. intros H. unfold wrap. now apply Z.mod_small. Qed.

(** Effect of a sequence of stores on the map. *)
Definition apply_stores {A} (vs : list (Z * A)) (m : list A) : list A :=
  fold_left (fun m cv => upd m (Z.to_nat (fst cv)) (snd cv)) vs m.

Definition stored_as t (cd : Z * double) (cv : Z * ct t) : Prop :=
  fst cd = fst cv /\ holds t (snd cv) (snd cd).

(** Notifications after [k] more points. *)
Definition notified (n : Z) (k : nat) (s : notifier) : notifier :=
  Notifier (plot_count s + Z.of_nat k)
    (map (fun o => o ++ map (fun i => Notify n (plot_count s + Z.of_nat i)) (seq 1 k)) (observers s)).

Lemma notified_0 n s : notified n 0 s = s.
Proof.
  unfold notified; cbn. rewrite Z.add_0_r. destruct s as [c obs]; cbn. f_equal.
  rewrite <- (map_id obs) at 2. apply map_ext. intros; apply app_nil_r.
Qed.

Lemma notify_plotted_ok s n :
  (0 <= plot_count s < n)%Z -> (n < 2 ^ 64)%Z -> notify_plotted s n = Ok (notified n 1 s).
Proof.
  intros H H2. unfold notify_plotted.
  replace (0 <? n)%Z with true by (symmetry; apply Z.ltb_lt; lia).
  replace (plot_count s <? n)%Z with true by (symmetry; apply Z.ltb_lt; lia).
  cbn [andb]. rewrite wrap_small by lia. reflexivity.
Qed.

Lemma notified_S n k s : notified n k (notified n 1 s) = notified n (S k) s.
Proof.
  unfold notified; cbn [plot_count observers]. f_equal; [lia|].
  rewrite map_map. apply map_ext. intros o.
  rewrite <- app_assoc. f_equal. cbn [seq map app]. f_equal.
  rewrite <- (seq_shift k 1), map_map. apply map_ext. intros i. f_equal. lia.
Qed.

Section Plotting.
Variable t : mapty.
Variables lo hi : R.
Variables a b : ct t.
Hypothesis Ha : dval (c_to_double (ct t) a) = Some lo.
Hypothesis Hb : dval (c_to_double (ct t) b) = Some hi.
Hypothesis Hlo : type_low t <= lo.
Hypothesis Hhi : hi <= type_high t.
Variable read : reader.

Let e := Extrema (Some a) (Some b) : extrema (ct t).

Lemma plot_calls_ok calls : forall m (i : plot_info (ct t)) n,
  n = Z.of_nat (length m) -> (n < 2 ^ 64)%Z ->
  (forall pt c, In (pt, c) calls -> (0 <= c < n)%Z /\ exists r, read pt zero_datum = Ok r) ->
  (0 <= plot_count (pi_notifier i))%Z ->
  (plot_count (pi_notifier i) + Z.of_nat (length calls) <= n)%Z ->
  exists l vs,
    stores read lo hi calls l /\ Forall2 (stored_as t) l vs /\
    plot_calls read e calls (m, i) =
      Ok (apply_stores vs m,
          PlotInfo (pi_samples i) (pi_lines i)
            (fold_left ex_update (map snd vs) (pi_extrema i))
            (pi_blank i) (notified n (length calls) (pi_notifier i))).
Proof.
  induction calls as [|[pt c] calls IH]; intros m i n En Hn Hc H0 Hk.
  - exists [], []. split; [constructor|]. split; [constructor|].
    cbn. rewrite notified_0. now destruct i.
  - destruct (Hc pt c (or_introl eq_refl)) as [Rc [[ok d] Hr]].
    cbn [plot_calls]. unfold plot. rewrite Hr. cbn [bind].
    cbn [length] in Hk.
    destruct (ok && in_range e d)%bool eqn:St.
    + apply andb_true_iff in St as [-> St].
      apply (in_range_within t a b lo hi d Ha Hb) in St.
      destruct St as (x & Dx & Rx).
      destruct (c_of_double_in_range t d x Dx ltac:(lra)) as (v & Ev & Iv & Vv).
      rewrite Ev. cbn [bind]. rewrite <- En.
      replace (0 <=? c)%Z with true by (symmetry; apply Z.leb_le; lia).
      replace (c <? n)%Z with true by (symmetry; apply Z.ltb_lt; lia).
      cbn [andb bind]. rewrite upd_length, <- En.
      cbn [update_extrema pi_notifier]. rewrite notify_plotted_ok by lia. cbn [bind set_notifier].
      destruct (IH (upd m (Z.to_nat c) v)
                   (PlotInfo (pi_samples i) (pi_lines i) (ex_update (pi_extrema i) v) (pi_blank i)
                      (notified n 1 (pi_notifier i))) n) as (l & vs & S1 & S2 & S3).
      * now rewrite upd_length.
      * exact Hn.
      * intros pt' c' Hin. apply Hc. now right.
      * cbn. lia.
      * cbn. lia.
      * exists ((c, d) :: l), ((c, v) :: vs). split; [|split].
        -- eapply stores_hit; [exact Hr| |exact S1]. exists x. auto.
        -- constructor; [|exact S2]. split; [reflexivity|]. exists x. auto.
        -- unfold set_notifier, update_extrema.
           cbn [pi_samples pi_lines pi_extrema pi_blank pi_notifier] in S3 |- *.
           rewrite S3. cbn [length map fold_left snd]. rewrite notified_S. reflexivity.
    + cbn [bind]. rewrite <- En. rewrite notify_plotted_ok by lia. cbn [bind].
      destruct (IH m (set_notifier i (notified n 1 (pi_notifier i))) n) as (l & vs & S1 & S2 & S3).
      * exact En.
      * exact Hn.
      * intros pt' c' Hin. apply Hc. now right.
      * cbn. lia.
      * cbn. lia.
      * exists l, vs. split; [|split; [exact S2|]].
        -- eapply stores_miss; [exact Hr| |exact S1].
           destruct ok; [right|left; reflexivity].
           intros W. apply (in_range_within t a b lo hi d Ha Hb) in W. fold e in W.
           rewrite W in St. discriminate.
        -- rewrite S3. cbn [pi_samples pi_lines pi_extrema pi_blank pi_notifier set_notifier length].
           rewrite notified_S. reflexivity.
Qed.

End Plotting.

(** Contents after a sequence of stores. *)
Lemma apply_stores_length {A} (vs : list (Z * A)) : forall m, length (apply_stores vs m) = length m.
Proof.
  induction vs as [|cv vs IH]; intros m; [reflexivity|].
  change (apply_stores (cv :: vs) m) with (apply_stores vs (upd m (Z.to_nat (fst cv)) (snd cv))).
  rewrite IH. apply upd_length.
Qed.

Lemma last_store_cons l c c' d d' :
  last_store l c d -> last_store ((c', d') :: l) c d.
Proof. intros (l1 & l2 & -> & H). exists ((c', d') :: l1), l2. auto. Qed.

Lemma apply_stores_contents t l vs : Forall2 (stored_as t) l vs ->
  (forall c v, In (c, v) vs -> (0 <= c)%Z) ->
  forall m c, (0 <= c)%Z -> (Z.to_nat c < length m)%nat ->
  (exists d v, last_store l c d /\ nth_error (apply_stores vs m) (Z.to_nat c) = Some v /\ holds t v d) \/
  (~ In c (map fst l) /\ nth_error (apply_stores vs m) (Z.to_nat c) = nth_error m (Z.to_nat c)).
Proof.
  induction 1 as [|[c' d'] [c'' v'] l vs [E Hh] F IH]; intros Hpos m c Hc Hlen.
  - right. auto.
  - cbn in E. subst c''. cbn [apply_stores fold_left fst snd] in *.
    fold (apply_stores vs (upd m (Z.to_nat c') v')).
    assert (Hpos' : forall c v, In (c, v) vs -> (0 <= c)%Z) by (intros; eapply Hpos; right; eauto).
    destruct (IH Hpos' (upd m (Z.to_nat c') v') c Hc) as [(d & v & L & N & Hv)|[N E]].
    + rewrite upd_length. exact Hlen.
    + left. exists d, v. split; [now apply last_store_cons|]. auto.
    + destruct (Z.eq_dec c c') as [->|Ne].
      * left. exists d', v'. split; [|split; [|exact Hh]].
        -- exists [], l. auto.
        -- rewrite E. now apply upd_same.
      * right. split.
        -- intros [H|H]; [apply Ne; now symmetry|contradiction].
        -- rewrite E. apply upd_other.
           assert (0 <= c')%Z by (eapply (Hpos c' v'); left; reflexivity). lia.
Qed.

Lemma stores_cells read lo hi calls l : stores read lo hi calls l ->
  forall c d, In (c, d) l -> exists pt, In (pt, c) calls.
Proof.
  induction 1 as [|pt c d calls l R W S IH|pt c ok d calls l R W S IH]; intros c0 d0 H0.
  - destruct H0.
  - destruct H0 as [E|H0].
    + injection E as -> ->. exists pt. now left.
    + destruct (IH c0 d0 H0) as [pt' P]. exists pt'. now right.
  - destruct (IH c0 d0 H0) as [pt' P]. exists pt'. now right.
Qed.

Lemma stored_as_cells t l vs : Forall2 (stored_as t) l vs ->
  forall c v, In (c, v) vs -> exists d, In (c, d) l.
Proof.
  induction 1 as [|[c' d'] [c'' v'] l vs [E Hh] F IH]; intros c v H.
  - destruct H.
  - cbn in E. destruct H as [E'|H].
    + injection E' as -> ->. exists d'. left. now subst.
    + destruct (IH c v H) as [d P]. exists d. now right.
Qed.

(** ** make_map *)

Lemma map_blank_spec t o :
  map_blank (T := ct t) o = match blank_of t o with Some b => Ok b | None => Throw invalid_argument end.
Proof.
  destruct t; cbn [map_blank ct int_ctype float_ctype double_ctype c_integral blank_of c_empty c_lo c_hi c_of_Z];
    try reflexivity; destruct o as [z|]; try reflexivity;
    match goal with |- context [((z <? ?l) || (?h <? z))%Z%bool] =>
      destruct (Z.ltb_spec z l), (Z.ltb_spec h z), (Z.leb_spec l z), (Z.leb_spec z h); try lia; reflexivity end.
Qed.

Lemma make_map_ok t read (mm : extrema (ct t)) (info : plot_info (ct t)) calls lo hi blank :
  limits t mm lo hi -> lo <= hi ->
  blank_of t (pi_blank info) = Some blank ->
  proper_size info -> proper_calls read (cells info) calls ->
  plot_count (pi_notifier info) = 0%Z ->
  exists m info' l vs,
    make_map read mm info calls = Ok (m, info') /\
    stores read lo hi calls l /\ Forall2 (stored_as t) l vs /\
    map_contents t (cells info) blank l m /\
    pi_extrema info' = fold_left ex_update (map snd vs) (pi_extrema info) /\
    pi_samples info' = pi_samples info /\ pi_lines info' = pi_lines info /\
    pi_blank info' = pi_blank info /\
    plot_count (pi_notifier info') = 0%Z /\
    observers (pi_notifier info') =
      map (fun o => o ++ progress (cells info) (length calls) ++ [Notify (cells info) (cells info); Reset])
          (observers (pi_notifier info)).
Proof.
  intros L LE Hbl [Sz Ss] [Pc Pl] C0.
  destruct (get_extrema_ok t mm lo hi L LE) as (a & b & Ge & Da & Db & Tl & Th).
  set (n := cells info) in *.
  assert (Wn : wrap (pi_samples info * pi_lines info) = n) by (apply wrap_small; fold (cells info); lia).
  set (m0 := repeat blank (Z.to_nat n)).
  assert (Ln : Z.of_nat (length m0) = n) by (unfold m0; rewrite repeat_length; lia).
  destruct (plot_calls_ok t lo hi a b Da Db Tl Th read calls m0 info n) as (l & vs & S1 & S2 & S3);
    try (symmetry; exact Ln); try tauto; try lia.
  unfold make_map. rewrite map_blank_spec, Hbl. cbn [bind]. rewrite Wn, Ge. cbn [bind].
  fold m0. rewrite S3. cbn [bind].
  rewrite apply_stores_length, Ln. unfold notify_done.
  replace (0 <? n)%Z with true by (symmetry; apply Z.ltb_lt; lia). cbn [bind set_notifier].
  eexists _, _, l, vs. split; [reflexivity|]. split; [exact S1|]. split; [exact S2|].
  split; [|cbn; repeat split].
  - split; [rewrite apply_stores_length; exact Ln|].
    intros c Hc.
    destruct (apply_stores_contents t l vs S2) with (m := m0) (c := c) as [P|[P Q]].
    + intros c' v' Hin. destruct (stored_as_cells t l vs S2 c' v' Hin) as [d' Hd'].
      destruct (stores_cells _ _ _ _ _ S1 c' d' Hd') as [pt Hpt].
      destruct (Pc pt c' Hpt) as [R1 _]. lia.
    + lia.
    + lia.
    + left. exact P.
    + right. split; [exact P|]. rewrite Q. unfold m0.
      rewrite nth_error_repeat by lia. reflexivity.
  - rewrite map_map. apply map_ext. intros o. rewrite <- app_assoc. f_equal. f_equal.
    unfold progress. apply map_ext. intros k. rewrite C0. reflexivity.
Qed.

(** ** Extremes of the stored data *)

Lemma holds_not_nan t v d : holds t v d -> not_nan t v.
Proof. intros (x & _ & E). unfold not_nan. congruence. Qed.

Lemma holds_fun t v v' d : holds t v d -> holds t v' d -> tval t v = tval t v'.
Proof. intros (x & D & E) (x' & D' & E'). assert (x = x') by congruence. congruence. Qed.

Lemma stored_as_in_r t l vs : Forall2 (stored_as t) l vs ->
  forall v, In v (map snd vs) -> exists d, In d (map snd l) /\ holds t v d.
Proof.
  induction 1 as [|[c d] [c' v'] l vs [E Hh] F IH]; intros v H; [destruct H|].
  destruct H as [<-|H].
  - exists d. split; [now left|exact Hh].
  - destruct (IH v H) as (d' & I & Hd). exists d'. split; [now right|exact Hd].
Qed.

Lemma stored_as_in_l t l vs : Forall2 (stored_as t) l vs ->
  forall d, In d (map snd l) -> exists v, In v (map snd vs) /\ holds t v d.
Proof.
  induction 1 as [|[c d] [c' v'] l vs [E Hh] F IH]; intros d0 H; [destruct H|].
  destruct H as [<-|H].
  - exists v'. split; [now left|exact Hh].
  - destruct (IH d0 H) as (v & I & Hd). exists v. split; [now right|exact Hd].
Qed.

Lemma val_le_val t a b a' b' : tval t a = tval t a' -> tval t b = tval t b' -> val_le t a b -> val_le t a' b'.
Proof. intros E1 E2 (x & y & F1 & F2 & L). exists x, y. repeat split; congruence. Qed.

Lemma extremes_of_stored t l vs : Forall2 (stored_as t) l vs ->
  extremes_of t l (fold_left ex_update (map snd vs) ex_empty).
Proof.
  intros F.
  assert (NN : forall v, In v (map snd vs) -> not_nan t v).
  { intros v Hv. destruct (stored_as_in_r t l vs F v Hv) as (d & _ & Hd). eapply holds_not_nan; eauto. }
  destruct (history_extrema t (map snd vs) NN) as [(E & A & B)|(m & M & A & B & [Im Lm] & [IM LM])].
  - left. split; [|auto]. destruct vs; [|discriminate]. now inversion F.
  - right. destruct (stored_as_in_r t l vs F m Im) as (dm & Idm & Hm).
    destruct (stored_as_in_r t l vs F M IM) as (dM & IdM & HM).
    exists m, M, dm, dM. repeat (split; [assumption|]).
    intros d v Hd Hv. destruct (stored_as_in_l t l vs F d Hd) as (v' & Iv' & Hv').
    pose proof (holds_fun t v' v d Hv' Hv) as E.
    split.
    + exact (val_le_val t m v' m v eq_refl E (Lm v' Iv')).
    + exact (val_le_val t v' M v M E eq_refl (LM v' Iv')).
Qed.

Lemma extremes_valid t l e : extremes_of t l e -> (is_valid e = true <-> l <> []).
Proof.
  intros [(-> & A & B)|(m & M & dm & dM & A & B & Im & IM & Hm & HM & L)].
  - unfold is_valid. rewrite A. split; [discriminate|congruence].
  - split.
    + intros _ ->. destruct Im.
    + intros _. apply is_valid_spec. exists m, M. repeat (split; [assumption|]).
      destruct (L dM M IM HM) as [P _]. exact P.
Qed.

(** ** Undefined conversions *)

Lemma bind_ub {A B} (x : outcome A) (f : A -> outcome B) u :
  x <> UB u -> (forall a, x = Ok a -> f a <> UB u) -> bind x f <> UB u.
Proof. intros H1 H2. destruct x; cbn; auto; congruence. Qed.

Lemma plot_calls_no_conversion_ub t lo hi (a b : ct t) read calls :
  dval (c_to_double (ct t) a) = Some lo -> dval (c_to_double (ct t) b) = Some hi ->
  type_low t <= lo -> hi <= type_high t ->
  (forall pt, read pt zero_datum <> UB ub_conversion) ->
  forall st, plot_calls read (Extrema (Some a) (Some b)) calls st <> UB ub_conversion.
Proof.
  intros Da Db Tl Th Hr. induction calls as [|[pt c] calls IH]; intros st; cbn [plot_calls]; [discriminate|].
  apply bind_ub; [|intros; apply IH]. unfold plot. destruct st as [m i].
  apply bind_ub; [apply Hr|]. intros [ok d] _.
  apply bind_ub.
  - destruct (ok && in_range _ d)%bool eqn:E; [|discriminate].
    apply andb_true_iff in E as [_ E].
    apply (in_range_within t a b lo hi d Da Db) in E. destruct E as (x & Dx & Rx).
    destruct (c_of_double_in_range t d x Dx ltac:(lra)) as (v & Ev & _). rewrite Ev. cbn [bind].
    destruct (_ && _)%bool; discriminate.
  - intros [m' i'] _. apply bind_ub; [|discriminate].
    unfold notify_plotted. destruct (_ && _)%bool; discriminate.
Qed.

Lemma make_map_no_conversion_ub t read (mm : extrema (ct t)) info calls lo hi :
  limits t mm lo hi -> (forall pt, read pt zero_datum <> UB ub_conversion) ->
  make_map read mm info calls <> UB ub_conversion.
Proof.
  intros L Hr. unfold make_map. apply bind_ub.
  { rewrite map_blank_spec. destruct (blank_of _ _); discriminate. }
  intros blank _. cbv zeta.
  destruct (Rle_or_lt lo hi) as [LE|LT].
  - destruct (get_extrema_ok t mm lo hi L LE) as (a & b & Ge & Da & Db & Tl & Th).
    rewrite Ge. cbn [bind]. apply bind_ub; [eapply plot_calls_no_conversion_ub; eauto|].
    intros [m i] _. apply bind_ub; [|discriminate]. unfold notify_done. destruct (_ <? _)%Z; discriminate.
  - rewrite (get_extrema_crossed t mm lo hi L LT). discriminate.
Qed.

Lemma make_map_crossed t read (mm : extrema (ct t)) info calls lo hi blank :
  blank_of t (pi_blank info) = Some blank ->
  limits t mm lo hi -> hi < lo -> make_map read mm info calls = Throw invalid_argument.
Proof.
  intros B L H. unfold make_map. rewrite map_blank_spec, B. cbn [bind].
  now rewrite (get_extrema_crossed t mm lo hi L H).
Qed.

Lemma make_map_bad_blank t read (mm : extrema (ct t)) info calls :
  blank_of t (pi_blank info) = None -> make_map read mm info calls = Throw invalid_argument.
Proof. intros B. unfold make_map. now rewrite map_blank_spec, B. Qed.

(** Every 64-bit map without a user maximum. *)
Lemma int64_get_extrema_ub (mm : extrema (ct I64)) :
  (forall a, e_min mm = Some a -> in_type I64 a) -> e_max mm = None ->
  get_extrema mm = UB ub_conversion.
Proof.
  intros Hm Hn. unfold get_extrema. rewrite Hn.
  set (mn := match e_min mm with Some a => a | None => _ end).
  assert (Im : in_type I64 mn).
  { unfold mn. destruct (e_min mm) as [a|]; [now apply Hm|]. cbn. lia. }
  cbn [in_type] in Im.
  change (c_to_double (ct I64) mn) with (double_of_Z mn).
  change (c_to_double (ct I64) (c_max (ct I64))) with (double_of_Z (2 ^ 63 - 1)).
  destruct (double_of_Z_round mn) as [F V]; [lia|].
  assert (Dm : dval (double_of_Z mn) = Some (B2R (double_of_Z mn))).
  { unfold dval. now rewrite (finite_not_nan _ F), fval_finite by exact F. }
  assert (Ub : validate_maximum (T := ct I64) (double_of_Z (2 ^ 63 - 1)) = UB ub_conversion).
  { apply (validate_maximum_ub I64 _ (IZR (2 ^ 63))); [reflexivity|apply double_of_Z_val64|].
    right. split; [reflexivity|]. cbn [type_high]. rewrite <- plus_IZR. apply IZR_le. lia. }
  unfold ex_make.
  destruct (Rle_or_lt (type_high I64 + 1) (B2R (double_of_Z mn))) as [C|C].
  - assert (E : validate_minimum (T := ct I64) (double_of_Z mn) = UB ub_conversion)
      by (apply (validate_minimum_ub I64 _ _ eq_refl Dm); exact C).
    now rewrite E.
  - assert (E : validate_minimum (T := ct I64) (double_of_Z mn) <> UB ub_conversion).
    { intros E. apply (validate_minimum_ub I64 _ _ eq_refl Dm) in E. lra. }
    assert (G : (exists a, validate_minimum (T := ct I64) (double_of_Z mn) = Ok a) \/
                validate_minimum (T := ct I64) (double_of_Z mn) = UB ub_conversion).
    { unfold validate_minimum. rewrite (finite_not_nan _ F). apply int_of_double_cases. }
    destruct G as [[a Ea]|Ea]; [|congruence]. rewrite Ea. cbn [bind]. now rewrite Ub.
Qed.

Lemma int64_make_map_ub read (mm : extrema (ct I64)) info calls blank :
  blank_of I64 (pi_blank info) = Some blank ->
  (forall a, e_min mm = Some a -> in_type I64 a) -> e_max mm = None ->
  make_map read mm info calls = UB ub_conversion.
Proof.
  intros B Hm Hn. unfold make_map. rewrite map_blank_spec, B. cbn [bind].
  now rewrite int64_get_extrema_ub.
Qed.

(** ** Planes *)

Lemma tval_representable t (a : ct t) x : tval t a = Some x -> type_low t <= x <= type_high t ->
  t <> I64 -> exists d, dval d = Some x.
Proof.
  intros E R1 N. exists (c_to_double (ct t) a). rewrite <- E. apply cval_exact; [exact N|].
  eapply in_type_of_range; eauto.
Qed.

Lemma convert_min t m x (a : ct t) : dval m = Some x -> tval t a = Some x -> type_low t <= x <= type_high t ->
  exists a', validate_minimum (T := ct t) m = Ok a' /\ tval t a' = Some x.
Proof.
  intros D E R1. destruct (validate_minimum_ok t m x D ltac:(lra)) as (a' & V & _ & T').
  exists a'. split; [exact V|]. rewrite T'. rewrite (proj1 (clip_id t x R1)).
  now rewrite (converted_id t a x E R1).
Qed.

Lemma convert_max t m x (a : ct t) : dval m = Some x -> tval t a = Some x -> type_low t <= x <= type_high t ->
  exists a', validate_maximum (T := ct t) m = Ok a' /\ tval t a' = Some x.
Proof.
  intros D E R1. destruct (validate_maximum_ok t m x D ltac:(lra) ltac:(intros; lra)) as (a' & V & _ & T').
  exists a'. split; [exact V|]. rewrite T'. rewrite (proj2 (clip_id t x R1)).
  now rewrite (converted_id t a x E R1).
Qed.

Lemma plane_limits_convert t e lo hi :
  plane_limits t e lo hi -> exists mm, ex_convert t e = Ok mm /\ limits t mm lo hi.
Proof.
  intros (L1 & L2 & H64).
  assert (G : t = F64 \/ t <> F64) by (destruct t; auto; right; discriminate).
  destruct G as [->|NF].
  - exists e. split; [reflexivity|]. split; [|split; [|discriminate]].
    + destruct (e_min e) as [m|]; [|exact L1]. destruct L1 as (D & R1 & _ & _).
      split; [exact D|]. split; [exact R1|]. exists m. exact D.
    + destruct (e_max e) as [m|]; [|exact L2]. destruct L2 as (D & R1 & _ & _).
      split; [exact D|]. split; [exact R1|]. exists m. exact D.
  - assert (E : ex_convert t e =
       bind (match e_min e with
            | Some m => bind (validate_minimum (T := ct t) m) (fun a => Ok (Some a))
            | None => Ok None
            end) (fun mn =>
       bind (match e_max e with
            | Some m => bind (validate_maximum (T := ct t) m) (fun a => Ok (Some a))
            | None => Ok None
            end) (fun mx => Ok (Extrema mn mx)))) by (destruct t; try reflexivity; congruence).
    rewrite E.
    assert (M1 : exists o, match e_min e with
            | Some m => bind (validate_minimum (T := ct t) m) (fun a => Ok (Some a))
            | None => Ok None
            end = Ok o /\ limit_value t o (lowest_val t) lo).
    { destruct (e_min e) as [m|]; [|exists None; auto].
      destruct L1 as (D & R1 & a & Ta). destruct (convert_min t m lo a D Ta R1) as (a' & V & T').
      exists (Some a'). rewrite V. split; [reflexivity|]. repeat split; try tauto. exists m. exact D. }
    assert (M2 : exists o, match e_max e with
            | Some m => bind (validate_maximum (T := ct t) m) (fun a => Ok (Some a))
            | None => Ok None
            end = Ok o /\ limit_value t o (highest_val t) hi /\ (e_max e <> None -> o <> None)).
    { destruct (e_max e) as [m|]; [|exists None; repeat split; auto].
      destruct L2 as (D & R1 & a & Ta). destruct (convert_max t m hi a D Ta R1) as (a' & V & T').
      exists (Some a'). rewrite V. split; [reflexivity|]. split; [|discriminate].
      repeat split; try tauto. exists m. exact D. }
    destruct M1 as (o1 & E1 & V1). destruct M2 as (o2 & E2 & V2 & V3).
    rewrite E1. cbn [bind]. rewrite E2. cbn [bind]. eexists. split; [reflexivity|].
    split; [exact V1|]. split; [exact V2|]. cbn [e_max]. intros Ht. apply V3. now apply H64.
Qed.

Lemma make_planes_ok t calls n blank planes : forall (info : plot_info (ct t)) acc vs,
  Forall2 (stored_as t) acc vs -> pi_extrema info = fold_left ex_update (map snd vs) ex_empty ->
  cells info = n -> proper_size info -> blank_of t (pi_blank info) = Some blank ->
  plot_count (pi_notifier info) = 0%Z ->
  (forall p read, In p planes -> pl_image p = Some read ->
     (exists lo hi, plane_limits t (pl_minmax p) lo hi /\ lo <= hi) /\ proper_calls read n calls) ->
  exists res info' acc',
    make_planes t calls planes info = Ok (res, info') /\
    planes_spec t calls n blank acc planes res acc' /\
    extremes_of t acc' (pi_extrema info') /\
    observers (pi_notifier info') =
      map (fun o => o ++ concat (repeat (progress n (length calls) ++ [Notify n n; Reset]) (length res)))
          (observers (pi_notifier info)).
Proof.
  induction planes as [|p planes IH]; intros info acc vs F Ee Cn Ps Bl C0 Hp; cbn [make_planes].
  - exists [], info, acc. split; [reflexivity|]. split; [constructor|]. split.
    + rewrite Ee. now apply extremes_of_stored.
    + cbn. rewrite <- (map_id (observers _)) at 1. apply map_ext. intros; now rewrite app_nil_r.
  - destruct (pl_image p) as [read|] eqn:Ei.
    + destruct (Hp p read (or_introl eq_refl) Ei) as [(lo & hi & PL & LE) PC].
      destruct (plane_limits_convert t _ lo hi PL) as (mm & Ec & Lm).
      rewrite Ec. cbn [bind].
      rewrite <- Cn in PC.
      destruct (make_map_ok t read mm info calls lo hi blank Lm LE Bl Ps PC C0)
        as (m & info1 & l & vs1 & M1 & S1 & F1 & MC & X1 & Q1 & Q2 & Q3 & Q4 & Q5).
      rewrite M1. cbn [bind].
      assert (F' : Forall2 (stored_as t) (acc ++ l) (vs ++ vs1)) by (apply Forall2_app; assumption).
      assert (X' : pi_extrema info1 = fold_left ex_update (map snd (vs ++ vs1)) ex_empty).
      { rewrite X1, Ee, map_app, fold_left_app. reflexivity. }
      destruct (IH info1 (acc ++ l) (vs ++ vs1) F' X') as (res & info' & acc' & R1 & R2 & R3 & R4).
      * unfold cells in *. now rewrite Q1, Q2.
      * unfold proper_size, cells in *. now rewrite Q1, Q2.
      * now rewrite Q3.
      * exact Q4.
      * intros p' read' Hin. apply Hp. now right.
      * rewrite R1. cbn [bind fst snd].
        eexists _, info', acc'. split; [reflexivity|]. split; [|split; [exact R3|]].
        -- eapply ps_plane; try eassumption.
           ++ now rewrite <- Cn.
           ++ pose proof (extremes_valid t _ _ (extremes_of_stored t _ _ F')) as EV.
              unfold data_mapped. rewrite X'.
              destruct (is_valid _); cbn [negb].
              ** split; [discriminate|]. intros H. exfalso. now apply (proj1 EV).
              ** split; [|reflexivity]. intros _. destruct (acc ++ l); [reflexivity|].
                 exfalso. assert (false = true) by (apply EV; discriminate). discriminate.
        -- rewrite R4, Q5, map_map. apply map_ext. intros o. cbn [length repeat concat].
           rewrite Cn, <- !app_assoc. reflexivity.
    + destruct (IH info acc vs F Ee Cn Ps Bl C0) as (res & info' & acc' & R1 & R2 & R3 & R4).
      { intros p' read' Hin. apply Hp. now right. }
      exists res, info', acc'. split; [exact R1|]. split; [now apply ps_null|]. auto.
Qed.

Lemma make_map_planes_ok t samples lines blank bv calls planes :
  (0 < samples)%Z -> (0 < lines)%Z -> (samples * lines < 2 ^ 64)%Z ->
  blank_of t blank = Some bv ->
  (forall p read, In p planes -> pl_image p = Some read ->
     (exists lo hi, plane_limits t (pl_minmax p) lo hi /\ lo <= hi) /\
     proper_calls read (samples * lines) calls) ->
  exists res kw l,
    make_map_planes t samples lines blank calls planes = Ok (res, kw) /\
    planes_spec t calls (samples * lines) bv [] planes res l /\
    match kw with
    | None => l = []
    | Some (mn, mx) => l <> [] /\ extremes_of t l (Extrema mn mx)
    end.
Proof.
  intros Hs Hl Hn Hb Hp. unfold make_map_planes.
  set (info := set_notifier _ _).
  destruct (make_planes_ok t calls (samples * lines) bv planes info [] []) as (res & info' & acc' & R1 & R2 & R3 & _);
    try reflexivity; try assumption.
  - constructor.
  - unfold proper_size, cells; cbn. lia.
  - rewrite R1. cbn [bind]. eexists _, _, acc'. split; [reflexivity|]. split; [exact R2|].
    pose proof (extremes_valid t _ _ R3) as EV. unfold data_mapped.
    destruct (is_valid (pi_extrema info')).
    + split; [now apply EV|]. destruct (pi_extrema info'); exact R3.
    + destruct acc'; [reflexivity|]. assert (false = true) by (apply EV; discriminate). discriminate.
Qed.

(** ** Corollaries used by the property theorems *)

Lemma map_contents_ok t read (mm : extrema (ct t)) (info : plot_info (ct t)) calls lo hi blank :
  limits t mm lo hi -> lo <= hi ->
  blank_of t (pi_blank info) = Some blank ->
  proper_size info -> proper_calls read (cells info) calls ->
  plot_count (pi_notifier info) = 0%Z ->
  exists m info' l,
    make_map read mm info calls = Ok (m, info') /\
    stores read lo hi calls l /\ map_contents t (cells info) blank l m.
Proof.
  intros L LE B P C Z. destruct (make_map_ok t read mm info calls lo hi blank L LE B P C Z)
    as (m & info' & l & vs & H1 & H2 & H3 & H4 & _).
  exists m, info', l. auto.
Qed.

Lemma stores_fun read lo hi calls : forall l l',
  stores read lo hi calls l -> stores read lo hi calls l' -> l = l'.
Proof.
  induction calls as [|[pt c] calls IH]; intros l l' H H'.
  - inversion H; inversion H'; reflexivity.
  - inversion H as [|? ? d ? l1 R1 W1 S1|? ? ok d ? l1 R1 W1 S1]; subst;
    inversion H' as [|? ? d' ? l1' R1' W1' S1'|? ? ok' d' ? l1' R1' W1' S1']; subst;
    rewrite R1 in R1'; injection R1'; intros; subst.
    + f_equal. now apply IH.
    + destruct W1'; [discriminate|contradiction].
    + destruct W1; [discriminate|contradiction].
    + now apply IH.
Qed.

Lemma extrema_reported t read (mm : extrema (ct t)) (info : plot_info (ct t)) calls lo hi blank :
  limits t mm lo hi -> lo <= hi ->
  blank_of t (pi_blank info) = Some blank ->
  proper_size info -> proper_calls read (cells info) calls ->
  plot_count (pi_notifier info) = 0%Z -> pi_extrema info = ex_empty ->
  exists m info' l,
    make_map read mm info calls = Ok (m, info') /\
    stores read lo hi calls l /\ extremes_of t l (pi_extrema info') /\
    (data_mapped info' = true <-> l <> []).
Proof.
  intros L LE B P C Z E. destruct (make_map_ok t read mm info calls lo hi blank L LE B P C Z)
    as (m & info' & l & vs & H1 & H2 & H3 & H4 & H5 & _).
  exists m, info', l. split; [exact H1|]. split; [exact H2|].
  rewrite E in H5. pose proof (extremes_of_stored t l vs H3) as X.
  unfold data_mapped. rewrite H5. split; [exact X|]. now apply extremes_valid.
Qed.

Lemma float_cell_nan t read (mm : extrema (ct t)) (info : plot_info (ct t)) calls lo hi :
  is_int_type t = false ->
  limits t mm lo hi -> lo <= hi ->
  proper_size info -> proper_calls read (cells info) calls ->
  plot_count (pi_notifier info) = 0%Z ->
  exists m info' l,
    make_map read mm info calls = Ok (m, info') /\ stores read lo hi calls l /\
    forall c, (0 <= c < cells info)%Z ->
      exists v, nth_error m (Z.to_nat c) = Some v /\ (tval t v = None <-> ~ In c (map fst l)).
Proof.
  intros Ht L LE P C Z.
  assert (B : exists b, blank_of t (pi_blank info) = Some b /\ tval t b = None).
  { destruct t; try discriminate; eexists; split; reflexivity. }
  destruct B as (b & B & Nb).
  destruct (map_contents_ok t read mm info calls lo hi b L LE B P C Z) as (m & info' & l & H1 & H2 & _ & H4).
  exists m, info', l. split; [exact H1|]. split; [exact H2|].
  intros c Hc. destruct (H4 c Hc) as [(d & v & LS & Nv & Hv)|(Ni & Nv)].
  - exists v. split; [exact Nv|]. split.
    + intros T. exfalso. now apply (holds_not_nan t v d Hv).
    + intros Hi. exfalso. apply Hi. destruct LS as (l1 & l2 & -> & _).
      rewrite map_app. apply in_or_app. right. now left.
  - exists b. split; [exact Nv|]. now split.
Qed.

(** The cells of a map that a plane's data select, in terms of the DATA_MIN /
    DATA_MAX doubles. *)
Lemma plane_selection t read (e : extrema (ct F64)) (info : plot_info (ct t)) calls lo hi blank :
  plane_limits t e lo hi -> lo <= hi ->
  blank_of t (pi_blank info) = Some blank ->
  proper_size info -> proper_calls read (cells info) calls ->
  plot_count (pi_notifier info) = 0%Z ->
  exists m info' l,
    bind (ex_convert t e) (fun mm => make_map read mm info calls) = Ok (m, info') /\
    stores read lo hi calls l /\ map_contents t (cells info) blank l m.
Proof.
  intros PL LE B P C Z. destruct (plane_limits_convert t e lo hi PL) as (mm & -> & L). cbn [bind].
  now apply map_contents_ok.
Qed.

Lemma progress_bounds n k ev :
  (0 < n)%Z -> (Z.of_nat k <= n)%Z -> In ev (progress n k) ->
  exists c, ev = Notify n c /\ (1 <= c <= n)%Z.
Proof.
  intros Hn Hk H. unfold progress in H. apply in_map_iff in H as (i & <- & Hi).
  apply in_seq in Hi. exists (Z.of_nat i). split; [reflexivity|]. lia.
Qed.

Lemma observers_ok t calls n blank planes (info : plot_info (ct t)) :
  pi_extrema info = ex_empty -> cells info = n -> proper_size info ->
  blank_of t (pi_blank info) = Some blank -> plot_count (pi_notifier info) = 0%Z ->
  (forall p read, In p planes -> pl_image p = Some read ->
     (exists lo hi, plane_limits t (pl_minmax p) lo hi /\ lo <= hi) /\ proper_calls read n calls) ->
  exists res info',
    make_planes t calls planes info = Ok (res, info') /\
    observers (pi_notifier info') =
      map (fun o => o ++ concat (repeat (progress n (length calls) ++ [Notify n n; Reset]) (length res)))
          (observers (pi_notifier info)).
Proof.
  intros E Cn Ps B Z Hp.
  destruct (make_planes_ok t calls n blank planes info [] []) as (res & info' & acc' & R1 & _ & _ & R4); auto.
  exists res, info'. auto.
Qed.

(** Truncated limits. *)
Lemma truncated_limits_refuted :
  map_of (bind (ex_convert I16 (@Extrema (ct F64) (Some (dlit 21 (-1))) (Some (double_of_Z 100))))
     (fun mm => make_map (constant_image (dlit 41 (-2))) mm (plot_info_new 1 1 None) one_cell))
     = Some [10%Z : ct I16] /\
  flt (dlit 41 (-2)) (dlit 21 (-1)) = true /\
  map_of (bind (ex_convert I16 (@Extrema (ct F64) (Some (double_of_Z 1)) (Some (dlit 21 (-1)))))
     (fun mm => make_map (constant_image (dlit 41 (-2))) mm (plot_info_new 1 1 None) one_cell))
     = Some [0%Z : ct I16] /\
  flt (double_of_Z 1) (dlit 41 (-2)) = true /\ flt (dlit 41 (-2)) (dlit 21 (-1)) = true.
Proof. repeat split; vm_compute; reflexivity. Qed.

(** Two planes, the second without any data: no warning. *)
Lemma warning_refuted :
  map_of (make_map_planes I16 1 1 None one_cell
    [Plane (Some (constant_image (double_of_Z 7))) ex_empty; Plane (Some empty_image) ex_empty])
  = Some [([7%Z : ct I16], false); ([0%Z : ct I16], false)].
Proof. vm_compute. reflexivity. Qed.
