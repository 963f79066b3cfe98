From Coq Require Import List ZArith Reals Lia Lra Bool.
From Flocq Require Import Core.
From Verif Require Import Base BaseFacts Num Utility_Model Utility_Spec Utility_Proofs Photo_Model Composite_Spec Photo_Spec.
Import ListNotations.
Open Scope Z_scope.

Lemma wrap_id z : 0 <= z < size_mod -> wrap z = z.
Proof. intros H. unfold wrap. now apply Z.mod_small. Qed.

Lemma access_in {B} (l : list B) i : 0 <= i < Z.of_nat (length l) -> exists b, access l i = Ok b /\ znth l i = Some b.
Proof.
  intros H. unfold access, znth. replace (i <? 0) with false by (symmetry; apply Z.ltb_ge; lia).
  destruct (nth_error l (Z.to_nat i)) as [b|] eqn:E; [exists b; auto|].
  apply nth_error_None in E. lia.
Qed.

(** ** Scanning the mask *)

Lemma scan_ok mask stride target n : forall pos j,
  (forall m, 0 <= m < Z.of_nat n -> 0 <= pos + m * stride < Z.of_nat (length mask)) ->
  exists r, scan mask pos stride n target j = Ok r /\ (forall d, r = Some d -> j <= d).
Proof.
  induction n as [|n IH]; intros pos j H; cbn [scan].
  - exists None. split; [reflexivity|]. discriminate.
  - destruct (access_in mask pos) as (b & -> & _); [specialize (H 0 ltac:(lia)); lia|].
    cbn [bind]. destruct (Bool.eqb b target).
    + exists (Some j). split; [reflexivity|]. intros d E; injection E as <-; lia.
    + destruct (IH (pos + stride) (j + 1)) as (r & -> & Hr).
      * intros m Hm. specialize (H (m + 1) ltac:(lia)). lia.
      * exists r. split; [reflexivity|]. intros d E. specialize (Hr d E). lia.
Qed.

Lemma scan_here mask pos stride n target j :
  access mask pos = Ok target -> (0 < n)%nat -> scan mask pos stride n target j = Ok (Some j).
Proof.
  intros H Hn. destruct n; [lia|]. cbn [scan]. rewrite H. cbn [bind].
  now rewrite eqb_reflx.
Qed.

Section Reads.
Context {A : arith} {P : Type}.
Implicit Types (p : photo A P) (g : geometry A P) (c : config A).

(** ** Construction *)

Lemma validate_ok n samples lines :
  is_size samples -> is_size lines -> size_nibbles n ->
  n_right n <= samples -> n_top n <= lines ->
  validate_parameters n samples lines =
  if (samples <=? n_left n + n_right n) || (lines <=? n_top n + n_bottom n)
  then Throw invalid_argument else Ok tt.
Proof.
  unfold is_size, size_nibbles, validate_parameters. intros Hs Hl (Nl & Nr & Nt & Nb) R1 T1.
  unfold is_size in *. rewrite !wrap_id by lia.
  destruct (Z.leb_spec (samples - n_right n) (n_left n));
  destruct (Z.leb_spec samples (n_left n + n_right n)); try lia; cbn [orb]; [reflexivity|].
  destruct (Z.leb_spec (lines - n_top n) (n_bottom n));
  destruct (Z.leb_spec lines (n_top n + n_bottom n)); try lia; reflexivity.
Qed.

Lemma photo_new_inv img samples lines c g p :
  photo_new img samples lines (Some c) (Some g) = Ok p ->
  2 <= samples /\ 2 <= lines /\ Z.of_nat (length img) = wrap (samples * lines) /\
  validate_parameters (c_nibbles c) samples lines = Ok tt /\
  p = Photo img samples lines (n_left (c_nibbles c)) (wrap (samples - n_right (c_nibbles c)))
        (n_top (c_nibbles c)) (wrap (lines - n_bottom (c_nibbles c))) c g
        (if c_remove_sky c then g_mask g samples lines else []).
Proof.
  unfold photo_new.
  destruct (samples <? 2) eqn:E1; [discriminate|]. destruct (lines <? 2) eqn:E2; [discriminate|].
  cbn [orb]. destruct (Z.of_nat (length img) =? wrap (samples * lines)) eqn:E3; [|discriminate].
  cbn [negb]. destruct (validate_parameters (c_nibbles c) samples lines) as [[]| |]; try discriminate.
  cbn [bind]. intros H; injection H as <-.
  repeat split; try lia.
Qed.

(** ** Bilinear interpolation: accesses *)

Lemma quad_indices (c : bilinear) n l b :
  window_ok c n -> 0 <= l -> 0 <= b -> l + 1 < bl_right c -> b + 1 < bl_bottom c ->
  0 <= b * bl_samples c /\ b * bl_samples c + l + 1 < (b + 1) * bl_samples c /\
  (b + 1) * bl_samples c + l + 1 < n.
Proof.
  intros (H1 & H2 & H3 & H4 & H5 & H6) Hl Hb Hr Ht.
  assert (0 <= b * bl_samples c) by nia.
  assert ((b + 2) * bl_samples c <= bl_bottom c * bl_samples c) by nia.
  lia.
Qed.

Lemma interpolate_cases (c : bilinear) (img : list A) x z datum l b :
  window_ok c (Z.of_nat (length img)) ->
  a_size A x = Ok l -> a_size A z = Ok b -> 0 <= l -> 0 <= b ->
  l + 1 < size_mod -> b + 1 < size_mod ->
  (~ (bl_left c <= l /\ l + 1 < bl_right c /\ bl_top c <= b /\ b + 1 < bl_bottom c) /\
   interpolate c img x z datum = Ok (false, datum)) \/
  (bl_left c <= l /\ l + 1 < bl_right c /\ bl_top c <= b /\ b + 1 < bl_bottom c /\
   exists bl br tl tr,
     znth img (b * bl_samples c + l) = Some bl /\
     znth img (b * bl_samples c + l + 1) = Some br /\
     znth img ((b + 1) * bl_samples c + l) = Some tl /\
     znth img ((b + 1) * bl_samples c + l + 1) = Some tr /\
     interpolate c img x z datum =
       let fx := a_sub A x (a_of_Z A l) in
       let fz := a_sub A z (a_of_Z A b) in
       let '(tmp, count) :=
         if negb (a_isnan A br) && negb (a_isnan A bl) then
           (a_add A (a_add A (a_of_Z A 0) (a_add A (a_mul A (a_sub A br bl) fx) bl))
              (a_add A (a_mul A (a_sub A br bl) fz) br), 2)
         else (a_of_Z A 0, 0) in
       let '(tmp, count) :=
         if negb (a_isnan A tr) && negb (a_isnan A tl) then
           (a_add A tmp (a_add A (a_mul A (a_sub A tr tl) fx) tl), count + 1)
         else (tmp, count) in
       let '(tmp, count) :=
         if negb (a_isnan A tl) && negb (a_isnan A bl) then
           (a_add A tmp (a_add A (a_mul A (a_sub A tl bl) fz) bl), count + 1)
         else (tmp, count) in
       if 0 <? count then Ok (true, a_div A tmp (a_of_Z A count)) else Ok (false, datum)).
Proof.
  intros W Ex Ez Hl Hb Hl' Hb'. unfold interpolate. rewrite Ex. cbn [bind]. rewrite Ez. cbn [bind].
  rewrite (wrap_id (l + 1)) by lia. rewrite (wrap_id (b + 1)) by lia.
  destruct (Z.ltb_spec l (bl_left c)); [left; cbn [orb]; split; [lia|reflexivity]|].
  destruct (Z.leb_spec (bl_right c) (l + 1)); [left; cbn [orb]; split; [lia|reflexivity]|].
  destruct (Z.ltb_spec b (bl_top c)); [left; cbn [orb]; split; [lia|reflexivity]|].
  destruct (Z.leb_spec (bl_bottom c) (b + 1)); [left; cbn [orb]; split; [lia|reflexivity]|].
  right. cbn [orb]. repeat (split; [lia|]).
  destruct (quad_indices c _ l b W Hl Hb) as (Q1 & Q2 & Q3); try lia.
  assert (W6 := W). destruct W6 as (_ & _ & _ & _ & _ & W6).
  destruct (access_in img (b * bl_samples c + l)) as (bl & Abl & Zbl); [lia|].
  destruct (access_in img (b * bl_samples c + l + 1)) as (br & Abr & Zbr); [lia|].
  destruct (access_in img ((b + 1) * bl_samples c + l)) as (tl & Atl & Ztl); [lia|].
  destruct (access_in img ((b + 1) * bl_samples c + l + 1)) as (tr & Atr & Ztr); [lia|].
  exists bl, br, tl, tr. repeat (split; [assumption|]).
  rewrite (wrap_id (b * bl_samples c)) by lia.
  rewrite (wrap_id ((b + 1) * bl_samples c)) by lia.
  rewrite (wrap_id (b * bl_samples c + (l + 1))) by lia.
  rewrite (wrap_id (b * bl_samples c + l)) by lia.
  rewrite (wrap_id ((b + 1) * bl_samples c + (l + 1))) by lia.
  rewrite (wrap_id ((b + 1) * bl_samples c + l)) by lia.
  replace (b * bl_samples c + (l + 1)) with (b * bl_samples c + l + 1) by lia.
  replace ((b + 1) * bl_samples c + (l + 1)) with ((b + 1) * bl_samples c + l + 1) by lia.
  rewrite Abr. cbn [bind]. rewrite Abl. cbn [bind]. rewrite Atr. cbn [bind]. rewrite Atl. cbn [bind].
  destruct (negb (a_isnan A br) && negb (a_isnan A bl)); reflexivity.
Qed.

Lemma interpolate_total (c : bilinear) (img : list A) x z datum l b :
  window_ok c (Z.of_nat (length img)) ->
  a_size A x = Ok l -> a_size A z = Ok b -> 0 <= l -> 0 <= b ->
  l + 1 < size_mod -> b + 1 < size_mod ->
  exists ok v, interpolate c img x z datum = Ok (ok, v) /\
    (ok = false -> v = datum) /\
    (ok = true -> bl_left c <= l /\ l + 1 < bl_right c /\ bl_top c <= b /\ b + 1 < bl_bottom c).
Proof.
  intros W Ex Ez Hl Hb Hl' Hb'.
  destruct (interpolate_cases c img x z datum l b W Ex Ez Hl Hb Hl' Hb')
    as [[_ ->]|(B1 & B2 & B3 & B4 & bl & br & tl & tr & _ & _ & _ & _ & ->)].
  - exists false, datum. repeat split; auto; discriminate.
  - cbv zeta. destruct (negb (a_isnan A br) && negb (a_isnan A bl));
    destruct (negb (a_isnan A tr) && negb (a_isnan A tl));
    destruct (negb (a_isnan A tl) && negb (a_isnan A bl)); cbn;
    do 2 eexists; (split; [reflexivity|]); split; auto; discriminate.
Qed.

(** Only the four pixels matter. *)
Lemma interpolate_local (c : bilinear) (img img' : list A) x z datum l b :
  window_ok c (Z.of_nat (length img)) -> length img' = length img ->
  a_size A x = Ok l -> a_size A z = Ok b -> 0 <= l -> 0 <= b ->
  l + 1 < size_mod -> b + 1 < size_mod ->
  (forall i k, (i = l \/ i = l + 1) -> (k = b \/ k = b + 1) ->
     znth img (k * bl_samples c + i) = znth img' (k * bl_samples c + i)) ->
  interpolate c img x z datum = interpolate c img' x z datum.
Proof.
  intros W L Ex Ez Hl Hb Hl' Hb' Eq.
  assert (W' : window_ok c (Z.of_nat (length img'))) by now rewrite L.
  destruct (interpolate_cases c img x z datum l b W Ex Ez Hl Hb Hl' Hb')
    as [[N ->]|(B1 & B2 & B3 & B4 & bl & br & tl & tr & E1 & E2 & E3 & E4 & ->)];
  destruct (interpolate_cases c img' x z datum l b W' Ex Ez Hl Hb Hl' Hb')
    as [[N' ->]|(B1' & B2' & B3' & B4' & bl' & br' & tl' & tr' & E1' & E2' & E3' & E4' & ->)];
  try tauto.
  rewrite <- Z.add_assoc in E2, E4, E2', E4'.
  rewrite <- Eq in E1', E2', E3', E4' by auto.
  assert (bl' = bl) by congruence. assert (br' = br) by congruence.
  assert (tl' = tl) by congruence. assert (tr' = tr) by congruence. subst. reflexivity.
Qed.

(** ** Weights *)

Lemma data_weight_nomask p i k :
  ph_mask p = [] -> 0 <= i < ph_samples p -> 0 <= k < ph_lines p ->
  ph_samples p < size_mod -> ph_lines p < size_mod ->
  data_weight p i k = Ok (Z.min (Z.min i (ph_samples p - i)) (Z.min k (ph_lines p - k))).
Proof.
  intros M Hi Hk Hs Hl. unfold data_weight. rewrite M. rewrite !wrap_id by lia. f_equal. lia.
Qed.

Lemma grid_index k s i n : 0 <= k < n -> 0 <= i < s -> 0 <= k * s + i < s * n.
Proof. intros. nia. Qed.

Lemma data_weight_mask p i k :
  ph_mask p <> [] -> Z.of_nat (length (ph_mask p)) = ph_samples p * ph_lines p ->
  ph_samples p * ph_lines p < size_mod ->
  0 <= ph_left p -> ph_left p <= i < ph_right p -> ph_right p <= ph_samples p ->
  0 <= ph_top p -> ph_top p <= k < ph_bottom p -> ph_bottom p <= ph_lines p ->
  access (ph_mask p) (k * ph_samples p + i) = Ok true ->
  data_weight p i k = Ok 0.
Proof.
  intros M L Sz H1 H2 H3 H4 H5 H6 Here. unfold data_weight.
  set (s := ph_samples p) in *. set (n := ph_lines p) in *.
  assert (Hs : 0 < s) by lia. assert (Hn : 0 < n) by lia.
  assert (s < size_mod) by nia. assert (n < size_mod) by nia.
  rewrite !wrap_id by lia.
  set (w0 := Z.min i _). assert (W0 : 0 <= w0) by (unfold w0; lia).
  assert (Kb : 0 <= k * s < size_mod) by (pose proof (grid_index k s 0 n ltac:(lia) ltac:(lia)); lia).
  assert (Tb : 0 <= ph_top p * s < size_mod) by (pose proof (grid_index (ph_top p) s 0 n ltac:(lia) ltac:(lia)); lia).
  assert (S1 : exists w, scan_samples p k (ph_left p) i w0 = Ok w /\ 0 <= w).
  { unfold scan_samples. replace (i <? ph_left p) with false by (symmetry; apply Z.ltb_ge; lia).
    fold s. rewrite (wrap_id (k * s)) by lia.
    destruct (scan_ok (ph_mask p) 1 true (Z.to_nat (i - ph_left p)) (k * s + ph_left p) 0) as (r & -> & Hr).
    - intros m Hm. rewrite L. pose proof (grid_index k s (ph_left p + m) n ltac:(lia) ltac:(lia)). lia.
    - cbn [bind]. eexists. split; [reflexivity|]. unfold min_weight. destruct r as [d|]; [|lia].
      specialize (Hr d eq_refl). lia. }
  destruct S1 as (w1 & E1 & P1).
  assert (S2 : scan_samples p k i (ph_right p) w1 = Ok 0).
  { unfold scan_samples. replace (ph_right p <? i) with false by (symmetry; apply Z.ltb_ge; lia).
    fold s. rewrite (wrap_id (k * s)) by lia.
    rewrite scan_here; [|exact Here|lia]. cbn [bind min_weight]. f_equal. lia. }
  assert (S3 : scan_lines p i (ph_top p) k 0 = Ok 0).
  { unfold scan_lines. fold s. rewrite (wrap_id (ph_top p * s)) by lia.
    destruct (scan_ok (ph_mask p) s false (Z.to_nat (k - ph_top p)) (ph_top p * s + i) 0) as (r & -> & Hr).
    - intros m Hm. rewrite L. pose proof (grid_index (ph_top p + m) s i n ltac:(lia) ltac:(lia)). lia.
    - cbn [bind]. unfold min_weight. destruct r as [d|]; [|reflexivity].
      specialize (Hr d eq_refl). f_equal. lia. }
  assert (S4 : scan_lines p i k (ph_bottom p) 0 = Ok 0).
  { unfold scan_lines. fold s. rewrite (wrap_id (k * s)) by lia.
    destruct (scan_ok (ph_mask p) s false (Z.to_nat (ph_bottom p - k)) (k * s + i) 0) as (r & -> & Hr).
    - intros m Hm. rewrite L. pose proof (grid_index (k + m) s i n ltac:(lia) ltac:(lia)). lia.
    - cbn [bind]. unfold min_weight. destruct r as [d|]; [|reflexivity].
      specialize (Hr d eq_refl). f_equal. lia. }
  destruct (ph_mask p); [congruence|].
  rewrite E1. cbn [bind]. rewrite S2. cbn [bind]. rewrite S3. cbn [bind]. exact S4.
Qed.

(** ** The whole read *)

Lemma read_cases img samples lines c g p pt scan data weight :
  built img samples lines c g p -> pixel_position g pt ->
  let '(visible, x, z) := g_pix g pt in
  photo_read_w p pt scan data weight = Ok (false, data, weight) \/
  (visible = true /\ a_lt A x (a_of_Z A 0) = false /\ a_lt A z (a_of_Z A 0) = false /\
   a_isnan A data = false /\
   exists i k d1 ok v, a_size A x = Ok i /\ a_size A z = Ok k /\
     in_window (c_nibbles c) samples lines i k /\
     0 <= i /\ 0 <= k /\
     access img (k * samples + i) = Ok d1 /\
     c_interp c img x z d1 = Ok (ok, v) /\
     (ph_mask p <> [] -> access (ph_mask p) (k * samples + i) = Ok true) /\
     photo_read_w p pt scan data weight =
       if negb ok then Ok (false, v, weight)
       else let (ok, v) := c_correct c v in
         if negb ok || a_isnan A v then Ok (false, v, weight)
         else if scan then bind (data_weight p i k) (fun w => Ok (true, v, a_of_Z A w))
         else Ok (true, v, weight)).
Proof.
  intros [Hnew Hfit Hnib Hr Hb Hint Hmask] Hpos.
  destruct (g_pix g pt) as [[visible x] z] eqn:G.
  destruct (photo_new_inv _ _ _ _ _ _ Hnew) as (Hs & Hl & Hlen & Hval & Ep).
  set (n := c_nibbles c) in *. destruct Hnib as (Nl & Nr & Nt & Nb). unfold is_size in *.
  assert (Hfit' : 0 <= samples * lines) by nia.
  rewrite wrap_id in Hlen by lia.
  assert (samples < size_mod) by nia. assert (lines < size_mod) by nia.
  rewrite (wrap_id (samples - n_right n)) in Ep by lia.
  rewrite (wrap_id (lines - n_bottom n)) in Ep by lia.
  unfold pixel_position in Hpos. rewrite G in Hpos.
  unfold photo_read_w. rewrite Ep; cbn [ph_geometry ph_samples ph_left ph_right ph_top ph_bottom ph_mask ph_image ph_config].
  rewrite G. destruct visible; cbn [negb orb]; [|left; reflexivity].
  destruct (a_lt A x (a_of_Z A 0)) eqn:Lx; cbn [orb]; [left; reflexivity|].
  destruct (a_lt A z (a_of_Z A 0)) eqn:Lz; cbn [orb]; [left; reflexivity|].
  destruct (Hpos eq_refl eq_refl eq_refl) as (i & k & Ei & Ek & [Pi Pi'] & [Pk Pk']).
  rewrite Ei. cbn [bind]. rewrite Ek. cbn [bind].
  destruct (Z.ltb_spec i (n_left n)); cbn [orb]; [left; reflexivity|].
  destruct (Z.leb_spec (samples - n_right n) i); cbn [orb]; [left; reflexivity|].
  destruct (Z.ltb_spec k (n_top n)); cbn [orb]; [left; reflexivity|].
  destruct (Z.leb_spec (lines - n_bottom n) k); cbn [orb]; [left; reflexivity|].
  pose proof (grid_index k samples i lines ltac:(lia) ltac:(lia)) as GI.
  rewrite (wrap_id (k * samples + i)) by lia.
  set (mask := if c_remove_sky c then g_mask g samples lines else []) in *.
  assert (Hbody : exists body, match mask with [] => Ok true | b :: l => access (b :: l) (k * samples + i) end = Ok body /\
                    (body = true -> mask <> [] -> access mask (k * samples + i) = Ok true)).
  { destruct mask as [|m0 mr] eqn:Em.
    - exists true. split; [reflexivity|]. congruence.
    - assert (Lm : Z.of_nat (length (m0 :: mr)) = samples * lines).
      { rewrite <- Em. unfold mask in Em. unfold mask. destruct (c_remove_sky c); [now apply Hmask|discriminate]. }
      destruct (access_in (m0 :: mr) (k * samples + i)) as (b & E & _); [lia|].
      exists b. split; [exact E|]. intros ->; auto. }
  destruct Hbody as (body & Eb & Hbody). rewrite Eb. cbn [bind].
  destruct body; cbn [negb orb]; [|left; reflexivity].
  destruct (a_isnan A data) eqn:Nd; [left; reflexivity|].
  right. repeat (split; [reflexivity|]).
  destruct (access_in img (k * samples + i)) as (d1 & Ed & _); [lia|].
  rewrite Ed. cbn [bind].
  assert (Hio : exists ok v, c_interp c img x z d1 = Ok (ok, v)).
  { destruct Hint as [->| ->].
    - exists true, d1. reflexivity.
    - destruct (interpolate_total (bilinear_new samples lines n) img x z d1 i k) as (ok & v & E & _); try assumption; try lia.
      + unfold window_ok, bilinear_new; cbn [bl_samples bl_left bl_right bl_top bl_bottom]. rewrite !wrap_id by lia.
        rewrite Hlen.
        assert (Q : (lines - n_bottom n) * samples <= samples * lines)
          by (rewrite (Z.mul_comm samples); apply Z.mul_le_mono_nonneg_r; lia).
        repeat (split; [lia|]). lia.
      + exists ok, v. exact E. }
  destruct Hio as (ok & v & Eio). rewrite Eio. cbn [bind].
  exists i, k, d1, ok, v. repeat (split; [first [assumption|reflexivity|unfold in_window; lia]|]).
  split; [intros; now apply Hbody|]. reflexivity.
Qed.

Lemma read_safe img samples lines c g p pt scan data weight :
  built img samples lines c g p -> pixel_position g pt ->
  exists ok v w, photo_read_w p pt scan data weight = Ok (ok, v, w) /\
    (ok = true -> exists x z i k, g_pix g pt = (true, x, z) /\
       a_size A x = Ok i /\ a_size A z = Ok k /\ in_window (c_nibbles c) samples lines i k).
Proof.
  intros B Hpos. pose proof (read_cases img samples lines c g p pt scan data weight B Hpos) as R.
  destruct (g_pix g pt) as [[visible x] z] eqn:G.
  destruct R as [->|(-> & Lx & Lz & Nd & i & k & d1 & ok & v & Ei & Ek & Win & Pi & Pk & Ed & Eio & Hm & ->)].
  - exists false, data, weight. split; [reflexivity|]. discriminate.
  - assert (S : exists w, data_weight p i k = Ok w).
    { destruct (ph_mask p) eqn:M.
      - unfold data_weight. rewrite M. eexists; reflexivity.
      - exists 0. destruct B as [Hnew Hfit Hnib Hr Hb Hint Hmask].
        destruct (photo_new_inv _ _ _ _ _ _ Hnew) as (Hs & Hl & Hlen & Hval & Ep).
        destruct Hnib as (Nl & Nr & Nt & Nb). unfold is_size in *. unfold in_window in Win.
        assert (samples < size_mod) by nia. assert (lines < size_mod) by nia.
        assert (Lm : Z.of_nat (length (ph_mask p)) = samples * lines).
        { rewrite Ep in M |- *; cbn [ph_mask] in *. destruct (c_remove_sky c); [now apply Hmask|discriminate]. }
        rewrite <- M in Hm.
        assert (Mn : ph_mask p <> []) by (rewrite M; discriminate).
        apply data_weight_mask; try exact Mn; rewrite Ep;
          cbn [ph_geometry ph_samples ph_lines ph_left ph_right ph_top ph_bottom ph_image ph_config];
          rewrite ?wrap_id by lia; try lia.
        + rewrite <- Lm. rewrite Ep. reflexivity.
        + specialize (Hm Mn). rewrite Ep in Hm. exact Hm. }
    destruct S as (w & Ew). rewrite Ew. cbn [bind].
    destruct ok; cbn [negb].
    + destruct (c_correct c v) as [ok' v']. destruct (negb ok' || a_isnan A v').
      * exists false, v', weight. split; [reflexivity|]. discriminate.
      * destruct scan; do 3 eexists; (split; [reflexivity|]); intros _; exists x, z, i, k; auto.
    + exists false, v, weight. split; [reflexivity|]. discriminate.
Qed.

(** With sky removal the weight of every pixel is zero; without it the
    distance to the nearest edge. *)
Lemma read_weight img samples lines c g p pt data weight v w :
  built img samples lines c g p -> pixel_position g pt ->
  photo_read_w p pt true data weight = Ok (true, v, w) ->
  exists x z i k, g_pix g pt = (true, x, z) /\ a_size A x = Ok i /\ a_size A z = Ok k /\
    (c_remove_sky c = false ->
       w = a_of_Z A (Z.min (Z.min i (samples - i)) (Z.min k (lines - k)))) /\
    (c_remove_sky c = true -> w = a_of_Z A 0).
Proof.
  intros B Hpos Hr. pose proof (read_cases img samples lines c g p pt true data weight B Hpos) as R.
  destruct (g_pix g pt) as [[visible x] z] eqn:G.
  destruct R as [E|(-> & Lx & Lz & Nd & i & k & d1 & ok & v1 & Ei & Ek & Win & Pi & Pk & Ed & Eio & Hm & E)];
    rewrite E in Hr; [discriminate|].
  destruct ok; cbn [negb] in Hr; [|discriminate].
  destruct (c_correct c v1) as [ok' v']. destruct (negb ok' || a_isnan A v'); [discriminate|].
  destruct (data_weight p i k) as [dw| |] eqn:Dw; cbn [bind] in Hr; try discriminate.
  injection Hr as <- <-.
  exists x, z, i, k. repeat (split; [assumption || reflexivity|]).
  destruct B as [Hnew Hfit Hnib Hrt Hb Hint Hmask].
  destruct (photo_new_inv _ _ _ _ _ _ Hnew) as (Hs & Hl & Hlen & Hval & Ep).
  destruct Hnib as (Nl & Nr & Nt & Nb). unfold is_size in *. unfold in_window in Win.
  assert (samples < size_mod) by nia. assert (lines < size_mod) by nia.
  split; intros Hsky.
  - f_equal. assert (Mn : ph_mask p = []) by (rewrite Ep; cbn; now rewrite Hsky).
    assert (ph_samples p = samples) by now rewrite Ep.
    assert (ph_lines p = lines) by now rewrite Ep.
    rewrite (data_weight_nomask p i k Mn) in Dw by lia. injection Dw as <-. congruence.
  - f_equal.
    assert (Lm : Z.of_nat (length (ph_mask p)) = samples * lines).
    { rewrite Ep; cbn [ph_mask]. rewrite Hsky. now apply Hmask. }
    assert (Mn : ph_mask p <> []) by (intros Q; rewrite Q in Lm; cbn in Lm; nia).
    assert (D0 : data_weight p i k = Ok 0).
    { apply data_weight_mask; try exact Mn; rewrite Ep;
        cbn [ph_geometry ph_samples ph_lines ph_left ph_right ph_top ph_bottom ph_image ph_config];
        rewrite ?wrap_id by lia; try lia.
      - rewrite <- Lm. rewrite Ep. reflexivity.
      - specialize (Hm Mn). rewrite Ep in Hm. exact Hm. }
    congruence.
Qed.

Lemma read_success img samples lines c g p pt scan data weight v w :
  built img samples lines c g p -> pixel_position g pt ->
  photo_read_w p pt scan data weight = Ok (true, v, w) ->
  a_isnan A v = false /\
  exists x z, g_pix g pt = (true, x, z) /\
    a_lt A x (a_of_Z A 0) = false /\ a_lt A z (a_of_Z A 0) = false.
Proof.
  intros B Hpos Hr. pose proof (read_cases img samples lines c g p pt scan data weight B Hpos) as R.
  destruct (g_pix g pt) as [[visible x] z] eqn:G.
  destruct R as [E|(-> & Lx & Lz & Nd & i & k & d1 & ok & v1 & Ei & Ek & Win & Pi & Pk & Ed & Eio & Hm & E)];
    rewrite E in Hr; [discriminate|].
  destruct ok; cbn [negb] in Hr; [|discriminate].
  destruct (c_correct c v1) as [ok' v']. destruct ok'; cbn [negb orb] in Hr; [|discriminate].
  destruct (a_isnan A v') eqn:Nv; [discriminate|].
  split; [|exists x, z; auto].
  destruct scan; [|injection Hr as <- _; exact Nv].
  destruct (data_weight p i k); cbn [bind] in Hr; try discriminate. injection Hr as <- _. exact Nv.
Qed.

(** The answer does not depend on a non-NaN prior content. *)
Lemma read_prior_content p pt data data' :
  a_isnan A data = false -> a_isnan A data' = false ->
  answer_of (photo_read p pt data) = answer_of (photo_read p pt data').
Proof.
  intros N N'. unfold photo_read, photo_read_w.
  destruct (g_pix (ph_geometry p) pt) as [[visible x] z].
  destruct (negb visible || a_lt A x (a_of_Z A 0) || a_lt A z (a_of_Z A 0)); [reflexivity|].
  destruct (a_size A x) as [i| |]; cbn [bind]; try reflexivity.
  destruct (a_size A z) as [k| |]; cbn [bind]; try reflexivity.
  destruct ((i <? ph_left p) || (ph_right p <=? i) || (k <? ph_top p) || (ph_bottom p <=? k)); [reflexivity|].
  match goal with |- context [bind ?m (fun body => if negb body || a_isnan A data then _ else _)] =>
    destruct m as [body| |] end; cbn [bind]; try reflexivity.
  rewrite N, N'. destruct body; cbn [negb orb]; [|reflexivity].
  reflexivity.
Qed.

(** A NaN in the caller's variable always gives "no data". *)
Lemma read_nan_prior p pt data :
  a_isnan A data = true ->
  forall v, answer_of (photo_read p pt data) <> Ok (Some v).
Proof.
  intros N v. unfold photo_read, photo_read_w.
  destruct (g_pix (ph_geometry p) pt) as [[visible x] z].
  destruct (negb visible || a_lt A x (a_of_Z A 0) || a_lt A z (a_of_Z A 0)); [discriminate|].
  destruct (a_size A x) as [i| |]; cbn [bind answer_of]; try discriminate.
  destruct (a_size A z) as [k| |]; cbn [bind answer_of]; try discriminate.
  destruct ((i <? ph_left p) || (ph_right p <=? i) || (k <? ph_top p) || (ph_bottom p <=? k)); [discriminate|].
  match goal with |- context [bind ?m (fun body => if negb body || a_isnan A data then _ else _)] =>
    destruct m as [body| |] end; cbn [bind answer_of]; try discriminate.
  rewrite N, orb_true_r. discriminate.
Qed.

End Reads.
