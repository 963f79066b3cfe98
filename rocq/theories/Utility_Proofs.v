(** Proofs about image inversion (lib/marc/utility.h). *)
From Coq Require Import List ZArith Lia Bool Arith.
From Verif Require Import Base BaseFacts Utility_Model Utility_Spec.
Import ListNotations.
Open Scope nat_scope.

Section P.
Context {A : Type}.
Implicit Types img : list A.

Lemma rev_slice_nth img f n m :
  f + n <= length img ->
  nth_error (firstn f img ++ rev (firstn n (skipn f img)) ++ skipn (f + n) img) m
  = if (f <=? m) && (m <? f + n) then nth_error img (f + (n - 1 - (m - f)))
    else nth_error img m.
Proof.
  intros H.
  assert (L1 : length (firstn f img) = f) by (apply firstn_length_le; lia).
  assert (L2 : length (firstn n (skipn f img)) = n)
    by (apply firstn_length_le; rewrite skipn_length; lia).
  destruct (Nat.leb_spec f m) as [H1|H1]; simpl.
  - rewrite nth_error_app2 by lia. rewrite L1.
    destruct (Nat.ltb_spec m (f + n)) as [H2|H2].
    + rewrite nth_error_app1 by (rewrite rev_length; lia).
      rewrite nth_error_rev by lia. rewrite L2.
      rewrite nth_error_firstn.
      destruct (Nat.ltb_spec (n - 1 - (m - f)) n) as [H3|H3]; [|lia].
      rewrite nth_error_skipn. f_equal; lia.
    + rewrite nth_error_app2 by (rewrite rev_length; lia).
      rewrite rev_length, L2, nth_error_skipn. f_equal. lia.
  - rewrite nth_error_app1 by lia. rewrite nth_error_firstn.
    destruct (Nat.ltb_spec m f) as [H2|H2]; [reflexivity|lia].
Qed.

Lemma rev_slice_length img f n :
  f + n <= length img ->
  length (firstn f img ++ rev (firstn n (skipn f img)) ++ skipn (f + n) img)
  = length img.
Proof.
  intros H. rewrite !app_length, rev_length, !firstn_length, !skipn_length. lia.
Qed.

(** Invariant of the horizontal loop. *)
Lemma invert_samples_loop_spec n : forall img b s,
  b + n * s <= length img ->
  exists img', invert_samples_loop n img (Z.of_nat b) (Z.of_nat s) = Ok img' /\
    length img' = length img /\
    (forall m, m < b -> nth_error img' m = nth_error img m) /\
    (forall k i, k < n -> i < s ->
       nth_error img' (b + k * s + i) = nth_error img (b + k * s + (s - 1 - i))) /\
    (forall m, b + n * s <= m -> nth_error img' m = nth_error img m).
Proof.
  induction n as [|n IH]; intros img b s H; cbn [invert_samples_loop].
  - exists img. repeat split; auto; intros; lia.
  - unfold reverse_range.
    assert (E : ((0 <=? Z.of_nat b)%Z && (Z.of_nat b + Z.of_nat s <=? Z.of_nat (length img))%Z) = true).
    { apply andb_true_intro; split; apply Z.leb_le; lia. }
    rewrite E. cbn [bind]. rewrite !Nat2Z.id.
    set (img1 := firstn b img ++ _).
    assert (L : length img1 = length img) by (apply rev_slice_length; lia).
    replace (Z.of_nat b + Z.of_nat s)%Z with (Z.of_nat (b + s)) by lia.
    destruct (IH img1 (b + s) s) as (img' & R & Len & Lo & Mid & Hi); [rewrite L; lia|].
    exists img'. split; [exact R|]. split; [lia|]. repeat split.
    + intros m Hm. rewrite Lo by lia. unfold img1. rewrite rev_slice_nth by lia.
      destruct (Nat.leb_spec b m); [lia|reflexivity].
    + intros k i Hk Hi'. destruct k as [|k].
      * rewrite Lo by lia. unfold img1. rewrite rev_slice_nth by lia.
        destruct (Nat.leb_spec b (b + 0 * s + i)); [|lia].
        destruct (Nat.ltb_spec (b + 0 * s + i) (b + s)); [|lia].
        simpl. f_equal. lia.
      * replace (b + S k * s + i) with (b + s + k * s + i) by lia.
        rewrite Mid by lia.
        unfold img1. rewrite rev_slice_nth by lia.
        destruct (Nat.leb_spec b (b + s + k * s + (s - 1 - i))); [|lia].
        destruct (Nat.ltb_spec (b + s + k * s + (s - 1 - i)) (b + s)); [lia|].
        simpl. f_equal. lia.
    + intros m Hm. rewrite Hi by lia. unfold img1. rewrite rev_slice_nth by lia.
      destruct (Nat.leb_spec b m); [|lia].
      destruct (Nat.ltb_spec m (b + s)); [lia|reflexivity].
Qed.

Lemma wrap_fits s l : fits s l -> wrap (s * l) = (s * l)%Z.
Proof. intros (H1 & H2 & H3). change (2 ^ 64)%Z with size_mod in H3. apply Z.mod_small. nia. Qed.

Lemma invert_samples_ok img samples lines :
  fits samples lines ->
  Z.of_nat (length img) = (samples * lines)%Z ->
  exists img', invert_samples img samples lines = Ok img' /\
    mirrored_lr (Z.to_nat samples) (Z.to_nat lines) img img'.
Proof.
  intros F H. unfold invert_samples. rewrite (wrap_fits _ _ F).
  rewrite H, Z.eqb_refl. cbn [negb].
  destruct F as (F1 & F2 & _).
  destruct (invert_samples_loop_spec (Z.to_nat lines) img 0 (Z.to_nat samples))
    as (img' & R & Len & _ & Mid & _).
  { apply Nat2Z.inj_le. rewrite Nat2Z.inj_add, Nat2Z.inj_mul, !Z2Nat.id by lia. lia. }
  rewrite Z2Nat.id in R by lia.
  exists img'. split; [exact R|]. split; [exact Len|].
  intros k i Hk Hi. unfold pixel. exact (Mid k i Hk Hi).
Qed.

Lemma swap_elements_ok img p q :
  p < length img -> q < length img -> p <> q ->
  exists img', swap_elements img (Z.of_nat p) (Z.of_nat q) = Ok img' /\
    length img' = length img /\
    nth_error img' p = nth_error img q /\ nth_error img' q = nth_error img p /\
    forall m, m <> p -> m <> q -> nth_error img' m = nth_error img m.
Proof.
  intros Hp Hq Hpq. unfold swap_elements.
  replace (0 <=? Z.of_nat p)%Z with true by (symmetry; apply Z.leb_le; lia).
  replace (0 <=? Z.of_nat q)%Z with true by (symmetry; apply Z.leb_le; lia).
  cbn [andb]. rewrite !Nat2Z.id.
  destruct (nth_error img p) as [a|] eqn:Ea; [|apply nth_error_None in Ea; lia].
  destruct (nth_error img q) as [b|] eqn:Eb; [|apply nth_error_None in Eb; lia].
  eexists. split; [reflexivity|]. rewrite !upd_length. split; [reflexivity|].
  repeat split.
  - rewrite upd_other by lia. apply upd_same; lia.
  - apply upd_same. rewrite upd_length; lia.
  - intros m H1 H2. rewrite !upd_other by lia. reflexivity.
Qed.

Lemma swap_ranges_ok n : forall img p q,
  p + n <= q -> q + n <= length img ->
  exists img', swap_ranges n img (Z.of_nat p) (Z.of_nat q) = Ok img' /\
    length img' = length img /\
    (forall j, j < n -> nth_error img' (p + j) = nth_error img (q + j)) /\
    (forall j, j < n -> nth_error img' (q + j) = nth_error img (p + j)) /\
    (forall m, ~ (p <= m < p + n) -> ~ (q <= m < q + n) ->
       nth_error img' m = nth_error img m).
Proof.
  induction n as [|n IH]; intros img p q H1 H2; cbn [swap_ranges].
  - exists img. repeat split; auto; intros; lia.
  - destruct (swap_elements_ok img p q) as (i1 & E1 & L1 & Hp & Hq & Ho); [lia..|].
    rewrite E1. cbn [bind].
    replace (Z.of_nat p + 1)%Z with (Z.of_nat (S p)) by lia.
    replace (Z.of_nat q + 1)%Z with (Z.of_nat (S q)) by lia.
    destruct (IH i1 (S p) (S q)) as (i2 & E2 & L2 & A1 & A2 & A3); [lia..|].
    exists i2. split; [exact E2|]. split; [lia|]. repeat split.
    + intros [|j] Hj.
      * rewrite !Nat.add_0_r. rewrite A3 by lia. exact Hp.
      * replace (p + S j) with (S p + j) by lia.
        rewrite A1 by lia. rewrite Ho by lia. f_equal; lia.
    + intros [|j] Hj.
      * rewrite !Nat.add_0_r. rewrite A3 by lia. exact Hq.
      * replace (q + S j) with (S q + j) by lia.
        rewrite A2 by lia. rewrite Ho by lia. f_equal; lia.
    + intros m M1 M2. rewrite A3 by lia. apply Ho; lia.
Qed.

(** Invariant of the vertical loop: [c] line pairs are done. *)
Lemma invert_lines_loop_spec n : forall img c s l img0,
  (Z.of_nat s * Z.of_nat l < size_mod)%Z ->
  length img = s * l -> length img0 = s * l ->
  2 * (c + n) <= l ->
  (forall k i, k < l -> i < s ->
     nth_error img (k * s + i) =
     if (k <? c) || (l - c <=? k) then nth_error img0 ((l - 1 - k) * s + i)
     else nth_error img0 (k * s + i)) ->
  exists img', invert_lines_loop n img (Z.of_nat c) (Z.of_nat s) (Z.of_nat l) = Ok img' /\
    length img' = s * l /\
    (forall k i, k < l -> i < s ->
     nth_error img' (k * s + i) =
     if (k <? c + n) || (l - (c + n) <=? k) then nth_error img0 ((l - 1 - k) * s + i)
     else nth_error img0 (k * s + i)).
Proof.
  induction n as [|n IH]; intros img c s l img0 W L L0 Hn Inv; cbn [invert_lines_loop].
  - exists img. split; [reflexivity|]. split; [exact L|].
    intros k i Hk Hi. rewrite Nat.add_0_r. apply Inv; auto.
  - assert (Wb : (Z.of_nat l < size_mod \/ Z.of_nat s = 0)%Z) by nia.
    destruct (Nat.eq_dec s 0) as [S0|S0].
    + (* no samples: nothing to swap *)
      subst s. rewrite Nat2Z.inj_0. change (Z.to_nat 0) with 0. cbn [swap_ranges bind].
      replace (Z.of_nat c + 1)%Z with (Z.of_nat (S c)) by lia.
      destruct (IH img (S c) 0 l img0) as (img' & R & Len & _); auto; try lia.
      exists img'. rewrite <- Nat2Z.inj_0. split; [exact R|]. split; [exact Len|]. intros; lia.
    + rewrite Nat2Z.id.
      assert (T : wrap (Z.of_nat c * Z.of_nat s) = Z.of_nat (c * s)).
      { unfold wrap. rewrite Z.mod_small; nia. }
      assert (Bt : wrap (wrap (Z.of_nat l - Z.of_nat c - 1) * Z.of_nat s) = Z.of_nat ((l - 1 - c) * s)).
      { unfold wrap at 2. rewrite (Z.mod_small (Z.of_nat l - Z.of_nat c - 1)) by nia.
        replace (Z.of_nat l - Z.of_nat c - 1)%Z with (Z.of_nat (l - 1 - c)) by lia.
        unfold wrap. rewrite Z.mod_small; nia. }
      rewrite T, Bt.
      destruct (swap_ranges_ok s img (c * s) ((l - 1 - c) * s)) as (i1 & E1 & L1 & A1 & A2 & A3).
      { nia. } { rewrite L. nia. }
      rewrite E1. cbn [bind].
      replace (Z.of_nat c + 1)%Z with (Z.of_nat (S c)) by lia.
      destruct (IH i1 (S c) s l img0) as (img' & R & Len & F); auto; try lia.
      { intros k i Hk Hi.
        destruct (Nat.eq_dec k c) as [->|Kc].
        - rewrite A1 by lia. rewrite Inv by lia.
          replace (c <? S c) with true by (symmetry; apply Nat.ltb_lt; lia).
          replace (l - 1 - c <? c) with false by (symmetry; apply Nat.ltb_ge; lia).
          replace (l - c <=? l - 1 - c) with false by (symmetry; apply Nat.leb_gt; lia).
          reflexivity.
        - destruct (Nat.eq_dec k (l - 1 - c)) as [->|Kl].
          + rewrite A2 by lia. rewrite Inv by lia.
            replace (l - S c <=? l - 1 - c) with true by (symmetry; apply Nat.leb_le; lia).
            rewrite orb_true_r.
            replace (c <? c) with false by (symmetry; apply Nat.ltb_ge; lia).
            replace (l - c <=? c) with false by (symmetry; apply Nat.leb_gt; lia).
            simpl. f_equal. nia.
          + rewrite A3.
            * rewrite Inv by lia.
              assert (E : ((k <? S c) || (l - S c <=? k)) = ((k <? c) || (l - c <=? k))).
              { destruct (Nat.ltb_spec k (S c)), (Nat.leb_spec (l - S c) k),
                  (Nat.ltb_spec k c), (Nat.leb_spec (l - c) k); auto; lia. }
              rewrite E. reflexivity.
            * intros [C1 C2]. assert (k = c) by nia. lia.
            * intros [C1 C2]. assert (k = l - 1 - c) by nia. lia. }
      exists img'. split; [exact R|]. split; [exact Len|].
      intros k i Hk Hi. rewrite F by auto. replace (S c + n) with (c + S n) by lia. reflexivity.
Qed.

Lemma invert_lines_ok img samples lines :
  fits samples lines ->
  Z.of_nat (length img) = (samples * lines)%Z ->
  exists img', invert_lines img samples lines = Ok img' /\
    mirrored_tb (Z.to_nat samples) (Z.to_nat lines) img img'.
Proof.
  intros F H. unfold invert_lines. rewrite (wrap_fits _ _ F).
  rewrite H, Z.eqb_refl. cbn [negb].
  destruct F as (F1 & F2 & F3). change (2 ^ 64)%Z with size_mod in F3.
  set (s := Z.to_nat samples). set (l := Z.to_nat lines).
  assert (Es : samples = Z.of_nat s) by (unfold s; lia).
  assert (El : lines = Z.of_nat l) by (unfold l; lia).
  assert (L : length img = s * l) by nia.
  set (h := Z.to_nat (lines / 2)).
  assert (Hh : h = l / 2).
  { unfold h. rewrite El. change 2%Z with (Z.of_nat 2). rewrite <- Nat2Z.inj_div. apply Nat2Z.id. }
  assert (Hd := Nat.div_mod l 2). assert (Hm := Nat.mod_upper_bound l 2).
  destruct (invert_lines_loop_spec h img 0 s l img) as (img' & R & Len & Fin); try lia.
  { intros k i Hk Hi. replace (k <? 0) with false by (symmetry; apply Nat.ltb_ge; lia).
    replace (l - 0 <=? k) with false by (symmetry; apply Nat.leb_gt; lia). reflexivity. }
  exists img'. rewrite Es, El. split; [exact R|]. split; [lia|].
  intros k i Hk Hi. unfold pixel. rewrite Fin by auto. simpl.
  destruct (Nat.ltb_spec k h) as [C|C]; [reflexivity|].
  destruct (Nat.leb_spec (l - h) k) as [D|D]; [reflexivity|].
  cbn [orb]. assert (k = l - 1 - k) by lia. congruence.
Qed.

Lemma invert_mismatch img samples lines :
  Z.of_nat (length img) <> wrap (samples * lines) ->
  invert_samples img samples lines = Throw invalid_argument /\
  invert_lines img samples lines = Throw invalid_argument.
Proof.
  intros H. unfold invert_samples, invert_lines.
  apply Z.eqb_neq in H. rewrite H. auto.
Qed.

Lemma inversion_guard img samples lines :
  fits samples lines ->
  (Z.of_nat (length img) <> (samples * lines)%Z ->
     invert_samples img samples lines = Throw invalid_argument /\
     invert_lines img samples lines = Throw invalid_argument) /\
  (Z.of_nat (length img) = (samples * lines)%Z ->
     (exists j, invert_samples img samples lines = Ok j /\ length j = length img) /\
     (exists j, invert_lines img samples lines = Ok j /\ length j = length img)).
Proof.
  intros F. split; intros H.
  - apply invert_mismatch. rewrite (wrap_fits _ _ F). exact H.
  - split.
    + destruct (invert_samples_ok img _ _ F H) as (j & E & [L _]). eauto.
    + destruct (invert_lines_ok img _ _ F H) as (j & E & [L _]). eauto.
Qed.

(** Every index of an image is the position of some pixel. *)
Lemma index_split s l m : m < s * l -> exists k i, k < l /\ i < s /\ m = k * s + i.
Proof.
  intros H. assert (s <> 0) by nia.
  exists (m / s), (m mod s). pose proof (Nat.div_mod m s ltac:(lia)) as D.
  pose proof (Nat.mod_upper_bound m s ltac:(lia)) as U.
  repeat split; [|lia|lia].
  apply Nat.div_lt_upper_bound; lia.
Qed.

Lemma pixels_ext s l img1 img2 :
  length img1 = s * l -> length img2 = s * l ->
  (forall k i, k < l -> i < s -> pixel img1 s k i = pixel img2 s k i) ->
  img1 = img2.
Proof.
  intros L1 L2 H. apply nth_error_ext. intros n.
  destruct (Nat.lt_ge_cases n (s * l)) as [C|C].
  - destruct (index_split _ _ _ C) as (k & i & Hk & Hi & ->). exact (H k i Hk Hi).
  - rewrite (proj2 (nth_error_None img1 n)) by lia.
    symmetry. apply nth_error_None. lia.
Qed.

Lemma mirrored_lr_invol s l img i1 i2 :
  length img = s * l -> mirrored_lr s l img i1 -> mirrored_lr s l i1 i2 -> i2 = img.
Proof.
  intros L [L1 M1] [L2 M2]. apply (pixels_ext s l); try lia.
  intros k i Hk Hi. rewrite M2, M1 by lia. f_equal. lia.
Qed.

Lemma mirrored_tb_invol s l img i1 i2 :
  length img = s * l -> mirrored_tb s l img i1 -> mirrored_tb s l i1 i2 -> i2 = img.
Proof.
  intros L [L1 M1] [L2 M2]. apply (pixels_ext s l); try lia.
  intros k i Hk Hi. rewrite M2, M1 by lia. f_equal. lia.
Qed.

Lemma mirrored_both_rev s l img i1 i2 :
  length img = s * l -> mirrored_lr s l img i1 -> mirrored_tb s l i1 i2 -> i2 = rev img.
Proof.
  intros L [L1 M1] [L2 M2]. apply (pixels_ext s l); [lia|rewrite rev_length; lia|].
  intros k i Hk Hi. rewrite M2, M1 by lia. unfold pixel.
  rewrite nth_error_rev by (rewrite L; nia). f_equal. rewrite L. nia.
Qed.

Lemma mirrored_both_rev' s l img i1 i2 :
  length img = s * l -> mirrored_tb s l img i1 -> mirrored_lr s l i1 i2 -> i2 = rev img.
Proof.
  intros L [L1 M1] [L2 M2]. apply (pixels_ext s l); [lia|rewrite rev_length; lia|].
  intros k i Hk Hi. rewrite M2, M1 by lia. unfold pixel.
  rewrite nth_error_rev by (rewrite L; nia). f_equal. rewrite L. nia.
Qed.

Lemma fits_len img samples lines :
  fits samples lines -> Z.of_nat (length img) = (samples * lines)%Z ->
  length img = Z.to_nat samples * Z.to_nat lines.
Proof. intros (F1 & F2 & F3) H. nia. Qed.

Lemma inversion_laws img samples lines :
  fits samples lines -> Z.of_nat (length img) = (samples * lines)%Z ->
  bind (invert_samples img samples lines) (fun j => invert_samples j samples lines) = Ok img /\
  bind (invert_lines img samples lines) (fun j => invert_lines j samples lines) = Ok img /\
  bind (invert_samples img samples lines) (fun j => invert_lines j samples lines) = Ok (rev img) /\
  bind (invert_lines img samples lines) (fun j => invert_samples j samples lines) = Ok (rev img).
Proof.
  intros F H. pose proof (fits_len _ _ _ F H) as L.
  destruct (invert_samples_ok img _ _ F H) as (a & Ea & Ma).
  destruct (invert_lines_ok img _ _ F H) as (b & Eb & Mb).
  assert (Ha : Z.of_nat (length a) = (samples * lines)%Z) by (destruct Ma; lia).
  assert (Hb : Z.of_nat (length b) = (samples * lines)%Z) by (destruct Mb; lia).
  destruct (invert_samples_ok a _ _ F Ha) as (aa & Eaa & Maa).
  destruct (invert_lines_ok a _ _ F Ha) as (ab & Eab & Mab).
  destruct (invert_samples_ok b _ _ F Hb) as (ba & Eba & Mba).
  destruct (invert_lines_ok b _ _ F Hb) as (bb & Ebb & Mbb).
  rewrite Ea, Eb. cbn [bind]. rewrite Eaa, Eab, Eba, Ebb.
  repeat split; f_equal.
  - eapply mirrored_lr_invol; eauto.
  - eapply mirrored_tb_invol; eauto.
  - eapply mirrored_both_rev; eauto.
  - eapply mirrored_both_rev'; eauto.
Qed.

End P.

(** Wrapping dimensions defeat the size check. *)
Lemma empty_samples_ub (samples lines : Z) :
  (0 < samples)%Z -> (0 < lines)%Z -> wrap (samples * lines) = 0%Z ->
  invert_samples (@nil Z) samples lines = UB ub_access.
Proof.
  intros Hs Hl Hw. unfold invert_samples. rewrite Hw.
  cbn [length Z.of_nat Z.eqb negb].
  destruct (Z.to_nat lines) as [|n] eqn:E; [lia|].
  cbn [invert_samples_loop]. unfold reverse_range. cbn [length Z.of_nat].
  destruct (Z.leb_spec (0 + samples) 0); [lia|]. reflexivity.
Qed.

Lemma empty_lines_ub (samples lines : Z) :
  (0 < samples)%Z -> (1 < lines)%Z -> wrap (samples * lines) = 0%Z ->
  invert_lines (@nil Z) samples lines = UB ub_access.
Proof.
  intros Hs Hl Hw. unfold invert_lines. rewrite Hw.
  cbn [length Z.of_nat Z.eqb negb].
  destruct (Z.to_nat (lines / 2)) as [|n] eqn:E.
  { assert (1 <= lines / 2)%Z by (apply Z.div_le_lower_bound; lia). lia. }
  cbn [invert_lines_loop].
  destruct (Z.to_nat samples) as [|m] eqn:Es; [lia|].
  cbn [swap_ranges]. unfold swap_elements.
  destruct (_ && _)%bool; [|reflexivity].
  destruct (Z.to_nat (wrap (0 * samples))); reflexivity.
Qed.

Lemma invert_wrap_refuted :
  exists (img : list Z) samples lines,
    is_size samples /\ is_size lines /\
    invert_samples img samples lines = UB ub_access /\
    invert_lines img samples lines = UB ub_access.
Proof.
  exists [], (2 ^ 32)%Z, (2 ^ 32)%Z.
  unfold is_size, size_mod.
  split; [lia|]. split; [lia|]. split.
  - apply empty_samples_ub; [lia|lia|reflexivity].
  - apply empty_lines_ub; [lia|lia|reflexivity].
Qed.
