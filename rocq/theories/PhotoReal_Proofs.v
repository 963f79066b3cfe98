From Coq Require Import List ZArith Reals Lia Lra Bool.
From Flocq Require Import Core.
From Verif Require Import Base BaseFacts Num Utility_Model Utility_Spec Utility_Proofs Photo_Model
  Composite_Spec Composite_Proofs Photo_Spec Photo_Proofs.
Import ListNotations.
Open Scope Z_scope.

Lemma num_size_Z z : 0 <= z < size_mod -> num_size (Num (IZR z)) = Ok z.
Proof.
  intros H. unfold num_size. rewrite Ztrunc_IZR.
  replace (0 <=? z) with true by (symmetry; apply Z.leb_le; lia).
  replace (z <? size_mod) with true by (symmetry; apply Z.ltb_lt; lia). reflexivity.
Qed.

Lemma num_lt_Z a b : num_lt (Num (IZR a)) (Num (IZR b)) = (a <? b).
Proof.
  cbn. destruct (Z.ltb_spec a b).
  - apply Rlt_bool_true. now apply IZR_lt.
  - apply Rlt_bool_false. now apply IZR_le.
Qed.

Lemma num_size_bounds x l : num_size (Num x) = Ok l -> 0 <= l < size_mod /\ Ztrunc x = l.
Proof.
  unfold num_size. destruct ((0 <=? Ztrunc x) && (Ztrunc x <? size_mod)) eqn:E; [|discriminate].
  intros H; injection H as <-. apply andb_prop in E. lia.
Qed.

(** ** Interpolation in real arithmetic *)

Lemma Req_bool_4 : Req_bool 4 0 = false. Proof. apply Req_bool_false. lra. Qed.
Lemma Req_bool_3 : Req_bool 3 0 = false. Proof. apply Req_bool_false. lra. Qed.
Lemma Req_bool_2 : Req_bool 2 0 = false. Proof. apply Req_bool_false. lra. Qed.
Lemma Req_bool_1 : Req_bool 1 0 = false. Proof. apply Req_bool_false. lra. Qed.

Ltac collapse u Hu :=
  repeat match goal with
    | |- context [Num ?a] => fail 1
    | _ => match type of Hu with
      | context [Num ?a] =>
        lazymatch goal with K : a = u |- _ => fail | _ => idtac end;
        assert (a = u) by (let K := fresh in destruct (Hu (Num a)) as [K|K]; [cbn; tauto|discriminate K|injection K; auto])
      end
    end; subst; field.

Lemma interpolate_real (c : bilinear) (img : list ar_num) x z datum l b :
  window_ok c (Z.of_nat (length img)) ->
  num_size (Num x) = Ok l -> num_size (Num z) = Ok b -> l + 1 < size_mod -> b + 1 < size_mod ->
  (~ inside c l b /\ interpolate (A := ar_num) c img (Num x) (Num z) datum = Ok (false, datum)) \/
  (inside c l b /\ exists q, quad_of img (bl_samples c) l b q /\
     ((~ usable q /\ interpolate (A := ar_num) c img (Num x) (Num z) datum = Ok (false, datum)) \/
      (usable q /\ exists v, interpolate (A := ar_num) c img (Num x) (Num z) datum = Ok (true, Num v) /\
         (forall u, common_value q u -> v = u) /\
         (forall bl br tl tr, q = Quad (Num bl) (Num br) (Num tl) (Num tr) ->
            v = (((br - bl) * (x - IZR l) + bl + ((br - bl) * (z - IZR b) + br)
                 + ((tr - tl) * (x - IZR l) + tl) + ((tl - bl) * (z - IZR b) + bl)) / 4)%R)))).
Proof.
  intros W Ex Ez Hl' Hb'.
  destruct (num_size_bounds _ _ Ex) as [Bl _]. destruct (num_size_bounds _ _ Ez) as [Bb _].
  destruct (interpolate_cases (A := ar_num) c img (Num x) (Num z) datum l b W Ex Ez) as
    [[N E]|(B1 & B2 & B3 & B4 & bl & br & tl & tr & Q1 & Q2 & Q3 & Q4 & E)]; try lia.
  - left. split; [exact N|exact E].
  - right. split; [repeat split; assumption|].
    exists (Quad bl br tl tr). split; [repeat split; assumption|].
    rewrite E; clear E. unfold usable, common_value; cbn [q_bl q_br q_tl q_tr].
    cbv zeta.
    destruct bl as [|bl], br as [|br], tl as [|tl], tr as [|tr]; cbn -[Req_bool];
      rewrite ?Req_bool_4, ?Req_bool_3, ?Req_bool_2, ?Req_bool_1.
    all: try (left; split; [intuition congruence|reflexivity]).
    all: right; (split; [intuition discriminate|]); eexists; (split; [reflexivity|]).
    all: split; [|intros ? ? ? ? Q; try discriminate Q; try (injection Q as <- <- <- <-; field)].
    all: intros u Hu; collapse u Hu.
Qed.

Lemma interpolate_at_pixel (c : bilinear) (img : list ar_num) l b bl br tl tr datum :
  window_ok c (Z.of_nat (length img)) -> inside c l b -> 0 <= l -> 0 <= b ->
  quad_of img (bl_samples c) l b (Quad (Num bl) (Num br) (Num tl) (Num tr)) ->
  l + 1 < size_mod -> b + 1 < size_mod ->
  interpolate (A := ar_num) c img (Num (IZR l)) (Num (IZR b)) datum =
    Ok (true, Num ((2 * bl + br + tl) / 4)%R).
Proof.
  intros W I Hl Hb Q Hl' Hb'.
  destruct (interpolate_real c img (IZR l) (IZR b) datum l b W) as
    [[N _]|(_ & q & Q' & [[U _]|(U & v & E & _ & F)])]; try (apply num_size_Z; lia); try lia; try tauto.
  - assert (q = Quad (Num bl) (Num br) (Num tl) (Num tr)) as ->.
    { destruct Q as (A1 & A2 & A3 & A4), Q' as (D1 & D2 & D3 & D4). cbn in *. destruct q; cbn in *; congruence. }
    exfalso. apply U. left. cbn. split; discriminate.
  - assert (q = Quad (Num bl) (Num br) (Num tl) (Num tr)) as ->.
    { destruct Q as (A1 & A2 & A3 & A4), Q' as (D1 & D2 & D3 & D4). cbn in *. destruct q; cbn in *; congruence. }
    rewrite E. rewrite (F _ _ _ _ eq_refl). do 3 f_equal. field.
Qed.

Lemma convex_quarter lo hi f a b : (lo <= a <= hi -> lo <= b <= hi -> 0 <= f <= 1 -> lo <= (b - a) * f + a <= hi)%R.
Proof. intros. split; nra. Qed.
Close Scope Z_scope.
Open Scope R_scope.

Lemma interpolated_between bl br tl tr fx fz :
  0 <= fx <= 1 -> 0 <= fz <= 1 -> (fz = 0 \/ bl = br) ->
  min4 bl br tl tr <=
    ((br - bl) * fx + bl + ((br - bl) * fz + br) + ((tr - tl) * fx + tl) + ((tl - bl) * fz + bl)) / 4
  <= max4 bl br tl tr.
Proof.
  intros Fx Fz H.
  set (lo := min4 bl br tl tr). set (hi := max4 bl br tl tr).
  assert (L : lo <= bl <= hi /\ lo <= br <= hi /\ lo <= tl <= hi /\ lo <= tr <= hi).
  { unfold lo, hi, min4, max4.
    pose proof (Rmin_l (Rmin bl br) (Rmin tl tr)). pose proof (Rmin_r (Rmin bl br) (Rmin tl tr)).
    pose proof (Rmin_l bl br). pose proof (Rmin_r bl br). pose proof (Rmin_l tl tr). pose proof (Rmin_r tl tr).
    pose proof (Rmax_l (Rmax bl br) (Rmax tl tr)). pose proof (Rmax_r (Rmax bl br) (Rmax tl tr)).
    pose proof (Rmax_l bl br). pose proof (Rmax_r bl br). pose proof (Rmax_l tl tr). pose proof (Rmax_r tl tr).
    repeat split; lra. }
  destruct L as (L1 & L2 & L3 & L4).
  pose proof (convex_quarter lo hi fx bl br L1 L2 Fx).
  pose proof (convex_quarter lo hi fx tl tr L3 L4 Fx).
  pose proof (convex_quarter lo hi fz bl tl L1 L3 Fz).
  assert (lo <= (br - bl) * fz + br <= hi).
  { destruct H as [->| ->]; lra. }
  lra.
Qed.
Close Scope R_scope.
Open Scope Z_scope.

(** ** Photo images as contributors of a mosaic *)

Lemma isnan_false d : num_isnan d = false <-> d <> NaN.
Proof. destruct d; cbn; split; congruence. Qed.

Lemma access_znth {B} (l : list B) i b : access l i = Ok b -> In b l.
Proof.
  unfold access, znth. destruct (i <? 0); [discriminate|].
  destruct (nth_error l (Z.to_nat i)) eqn:E; [|discriminate]. intros H; injection H as <-.
  now apply nth_error_In in E.
Qed.

Section Contributor.
Context {P : Type} (img : list ar_num) (samples lines : Z) (c : config ar_num) (g : geometry ar_num P)
  (p : photo ar_num P) (pt : P).
Hypothesis (B : built (A := ar_num) img samples lines c g p) (Hpos : pixel_position g pt)
  (Hclean : forall v, In v img -> v <> NaN) (Hcor : c_correct c = null_correction).

Lemma read_no_nan scan d w ok d' w' : d <> NaN ->
  photo_read_w p pt scan d w = Ok (ok, d', w') ->
  d' <> NaN /\ (ok = false -> c_interp c = null_interpolation -> d' = d).
Proof.
  intros Nd Hr. pose proof (read_cases img samples lines c g p pt scan d w B Hpos) as R.
  destruct (g_pix g pt) as [[visible x] z] eqn:G.
  destruct R as [E|(-> & Lx & Lz & _ & i & k & d1 & ok1 & v1 & Ei & Ek & Win & Pi & Pk & Ed & Eio & Hm & E)];
    rewrite E in Hr.
  - injection Hr as <- <- <-. auto.
  - rewrite Hcor in Hr. unfold null_correction in Hr.
    assert (Nd1 : d1 <> NaN) by (apply Hclean; exact (access_znth _ _ _ Ed)).
    assert (Hv : v1 <> NaN /\ (c_interp c = null_interpolation -> ok1 = true)).
    { pose proof (b_interp _ _ _ _ _ _ B) as [I|I]; rewrite I in Eio.
      - injection Eio as <- <-. auto.
      - assert (Eio' := Eio).
        cbn in Ei, Ek. destruct x as [|x]; [discriminate|]. destruct z as [|z]; [discriminate|].
        destruct (photo_new_inv _ _ _ _ _ _ (b_new _ _ _ _ _ _ B)) as (Hs & Hl & Hlen & Hval & Ep).
        destruct (b_nib _ _ _ _ _ _ B) as (Nl & Nr & Nt & Nb).
        pose proof (b_fits _ _ _ _ _ _ B). pose proof (b_right _ _ _ _ _ _ B). pose proof (b_bottom _ _ _ _ _ _ B).
        unfold is_size in *. unfold in_window in Win.
        assert (samples < size_mod) by nia. assert (lines < size_mod) by nia.
        rewrite wrap_id in Hlen by nia.
        destruct (interpolate_real (bilinear_new samples lines (c_nibbles c)) img x z d1 i k) as
          [[_ E1]|(_ & q & _ & [[_ E1]|(_ & u & E1 & _)])]; try assumption; try lia.
        + unfold window_ok, bilinear_new; cbn [bl_samples bl_left bl_right bl_top bl_bottom].
          rewrite !wrap_id by lia. rewrite Hlen.
          assert (Q : (lines - n_bottom (c_nibbles c)) * samples <= samples * lines)
            by (rewrite (Z.mul_comm samples); apply Z.mul_le_mono_nonneg_r; lia).
          repeat (split; [lia|]). lia.
        + cbn in Eio'. rewrite E1 in Eio'. injection Eio' as <- <-. split; [exact Nd1|].
          intros K. rewrite K in I. exfalso.
          assert (Bad : interpolate (A := ar_num) (bilinear_new samples lines (c_nibbles c)) img (Num x) (Num z) d1
                    = Ok (true, d1)) by (rewrite <- I; reflexivity).
          congruence.
        + cbn in Eio'. rewrite E1 in Eio'. injection Eio' as <- <-. split; [exact Nd1|].
          intros K. rewrite K in I. exfalso.
          assert (Bad : interpolate (A := ar_num) (bilinear_new samples lines (c_nibbles c)) img (Num x) (Num z) d1
                    = Ok (true, d1)) by (rewrite <- I; reflexivity).
          congruence.
        + cbn in Eio'. rewrite E1 in Eio'. injection Eio' as <- <-. split; [discriminate|]. auto. }
    destruct Hv as [Nv Hok].
    assert (Nb : a_isnan ar_num v1 = false) by (apply isnan_false; exact Nv).
    destruct ok1; cbn [negb orb] in Hr.
    + rewrite Nb in Hr. destruct scan.
      * destruct (data_weight p i k); cbn [bind] in Hr; try discriminate. injection Hr as <- <- <-.
        split; [exact Nv|discriminate].
      * injection Hr as <- <- <-. split; [exact Nv|discriminate].
    + injection Hr as <- <- <-. split; [exact Nv|]. intros _ K. discriminate (Hok K).
Qed.

Lemma photo_read_inv d r : photo_read p pt d = Ok r ->
  exists w, photo_read_w p pt false d (Num 1) = Ok (fst r, snd r, w).
Proof.
  unfold photo_read. cbn. destruct (photo_read_w p pt false d (Num 1)) as [[[ok v] w]| |]; cbn; try discriminate.
  intros H; injection H as <-. exists w. reflexivity.
Qed.

Lemma photo_read_ok d : exists r, photo_read p pt d = Ok r.
Proof.
  destruct (read_safe img samples lines c g p pt false d (Num 1) B Hpos) as (ok & v & w & E & _).
  exists (ok, v). unfold photo_read. cbn. cbn in E. now rewrite E.
Qed.

Lemma photo_answers : exists o, answers (photo_read p pt) o /\
  (c_interp c = null_interpolation -> answers_clean (photo_read p pt) o).
Proof.
  destruct (photo_read_ok (Num 0)) as ([ok0 v0] & E0).
  assert (H : forall d, d <> NaN -> exists ok d', photo_read p pt d = Ok (ok, d') /\ d' <> NaN /\
            ok = ok0 /\ (ok = true -> d' = v0) /\
            (ok = false -> c_interp c = null_interpolation -> d' = d)).
  { intros d Nd. destruct (photo_read_ok d) as ([ok d'] & E). exists ok, d'.
    destruct (photo_read_inv d _ E) as (w & Ew). cbn [fst snd] in Ew.
    destruct (read_no_nan _ _ _ _ _ _ Nd Ew) as [N1 N2].
    pose proof (read_prior_content (A := ar_num) p pt d (Num 0)) as Same.
    cbn [a_isnan ar_num] in Same. rewrite E, E0 in Same. cbn in Same.
    specialize (Same (proj2 (isnan_false d) Nd) eq_refl).
    repeat split; auto; destruct ok, ok0; cbn in Same; congruence. }
  destruct ok0.
  - destruct v0 as [|v0].
    { destruct (H (Num 0)) as (ok & d' & E & N & _ & Hv & _); [discriminate|]. exfalso. apply N.
      rewrite E0 in E. injection E as _ <-. reflexivity. }
    exists (Some v0). split; [|intros _]; intros d Nd; destruct (H d Nd) as (ok & d' & E & N & -> & Hv & _);
      rewrite E, (Hv eq_refl); reflexivity.
  - exists None. split.
    + intros d Nd. destruct (H d Nd) as (ok & d' & E & N & -> & _). exists d'. auto.
    + intros K d Nd. destruct (H d Nd) as (ok & d' & E & N & -> & _ & Hd). rewrite E, (Hd eq_refl K). reflexivity.
Qed.

End Contributor.

(** ** Concrete photo images *)

(** A geometry that puts every point on pixel (x, z) and sees only body. *)
Definition fixed_geometry (x z : Z) : geometry ar_num unit :=
  Geometry (A := ar_num) (fun _ => (true, Num (IZR x), Num (IZR z)))
    (fun s l => repeat true (Z.to_nat (s * l))).
Definition no_nibbles := Nibbles 0 0 0 0.
Definition plain (sky : bool) (i : interp ar_num) : config ar_num := Config no_nibbles sky i null_correction.
Definition photo_at (img : list ar_num) (samples lines x z : Z) (c : config ar_num) : outcome (photo ar_num unit) :=
  photo_new (A := ar_num) img samples lines (Some c) (Some (fixed_geometry x z)).
Definition flat_image (v : num) (n : nat) : list num := repeat v n.

Lemma fixed_position x z pt : 0 <= x < size_mod -> 0 <= z < size_mod -> pixel_position (fixed_geometry x z) pt.
Proof.
  intros Hx Hz. cbn. intros _ _ _. exists x, z. repeat split; try lia; now apply num_size_Z.
Qed.

Ltac run_read :=
  unfold photo_read, photo_read_w;
  cbn [ph_geometry fixed_geometry g_pix ph_samples ph_left ph_right ph_top ph_bottom ph_mask ph_image ph_config
       a_lt a_of_Z a_size a_isnan ar_num];
  rewrite ?num_lt_Z; cbn [negb orb Z.ltb Z.compare Pos.compare Pos.compare_cont];
  rewrite !num_size_Z by (unfold size_mod; lia).

Definition get {B} (o : outcome B) (d : B) : B := match o with Ok b => b | _ => d end.

Lemma read_null_2x2 v d : d <> NaN -> v <> NaN ->
  exists p, photo_at (flat_image v 4) 2 2 1 1 (plain false null_interpolation) = Ok p /\
    photo_read p tt d = Ok (true, v).
Proof.
  intros Nd Nv. eexists. split; [reflexivity|]. run_read. cbn -[num_isnan].
  apply isnan_false in Nd. apply isnan_false in Nv. rewrite Nd; cbn -[num_isnan].
  match goal with |- context [access ?l ?i] => change (access l i) with (Ok v) end.
  cbn -[num_isnan]. rewrite Nv. reflexivity.
Qed.

Lemma read_nan_pixel d : d <> NaN ->
  exists p, photo_at (flat_image NaN 4) 2 2 1 1 (plain false null_interpolation) = Ok p /\
    photo_read p tt d = Ok (false, NaN).
Proof.
  intros Nd. eexists. split; [reflexivity|]. run_read. cbn -[num_isnan].
  apply isnan_false in Nd. rewrite Nd. reflexivity.
Qed.

Lemma read_nan_variable v :
  exists p, photo_at (flat_image v 4) 2 2 1 1 (plain false null_interpolation) = Ok p /\
    photo_read p tt NaN = Ok (false, NaN).
Proof. eexists. split; [reflexivity|]. run_read. reflexivity. Qed.

Lemma read_bilinear_edge v d : d <> NaN ->
  exists p, photo_at (flat_image v 4) 2 2 1 1 (plain false (interpolate (bilinear_new 2 2 no_nibbles))) = Ok p /\
    photo_read p tt d = Ok (false, v).
Proof.
  intros Nd. eexists. split; [reflexivity|]. run_read. cbn -[num_isnan interpolate].
  apply isnan_false in Nd. rewrite Nd. cbn -[num_isnan interpolate].
  unfold interpolate. cbn [a_size ar_num]. rewrite !num_size_Z by (unfold size_mod; lia).
  reflexivity.
Qed.

(** The first image has no data at the point, the second has 5, yet the
    composite of the two has none. *)
Lemma first_read_poisoned :
  exists p1 p2,
    photo_at (flat_image NaN 4) 2 2 1 1 (plain false null_interpolation) = Ok p1 /\
    photo_at (flat_image (Num 5) 4) 2 2 1 1 (plain false null_interpolation) = Ok p2 /\
    photo_read p2 tt (Num 0) = Ok (true, Num 5) /\
    first_read [photo_read p1 tt; photo_read p2 tt] (Num 0 : ar_num) = Ok (0, NaN) /\
    unweighted_average same_num [photo_read p1 tt; photo_read p2 tt] (Num 0 : ar_num) = Ok (0, NaN).
Proof.
  destruct (read_nan_pixel (Num 0)) as (p1 & E1 & R1); [discriminate|].
  destruct (read_null_2x2 (Num 5) (Num 0)) as (p2 & E2 & R2); [discriminate..|].
  destruct (read_nan_variable (Num 5)) as (p2' & E2' & R2').
  assert (p2' = p2) by congruence. subst p2'.
  exists p1, p2. repeat (split; [assumption|]).
  split; [|unfold unweighted_average]; cbn [first_read sum_loop]; rewrite R1; cbn [bind first_read sum_loop];
    rewrite R2'; reflexivity.
Qed.

(** One contributor (5); the image after it has no data but leaves 9. *)
Lemma single_clobbered :
  exists p1 p2,
    photo_at (flat_image (Num 5) 4) 2 2 1 1 (plain false null_interpolation) = Ok p1 /\
    photo_at (flat_image (Num 9) 4) 2 2 1 1 (plain false (interpolate (bilinear_new 2 2 no_nibbles))) = Ok p2 /\
    photo_read p1 tt (Num 0) = Ok (true, Num 5) /\
    photo_read p2 tt (Num 5) = Ok (false, Num 9) /\
    unweighted_average same_num [photo_read p1 tt; photo_read p2 tt] (Num 0 : ar_num) = Ok (1, Num 9).
Proof.
  destruct (read_null_2x2 (Num 5) (Num 0)) as (p1 & E1 & R1); [discriminate..|].
  destruct (read_bilinear_edge (Num 9) (Num 5)) as (p2 & E2 & R2); [discriminate|].
  exists p1, p2. repeat (split; [assumption|]).
  unfold unweighted_average; cbn [sum_loop]; rewrite R1; cbn [bind sum_loop]; rewrite R2; reflexivity.
Qed.

(** Weights with sky removal: the centre of a 5x5 body weighs nothing. *)
Lemma read_sky_5x5 v d w : d <> NaN -> v <> NaN ->
  exists p, photo_at (flat_image v 25) 5 5 2 2 (plain true null_interpolation) = Ok p /\
    photo_read_w p tt true d w = Ok (true, v, Num 0).
Proof.
  intros Nd Nv. eexists. split; [reflexivity|]. run_read. cbn -[num_isnan].
  apply isnan_false in Nd. apply isnan_false in Nv. rewrite Nd; cbn -[num_isnan].
  match goal with |- context [access ?l ?i] => change (access l i) with (Ok v) end.
  cbn -[num_isnan]. rewrite Nv. reflexivity.
Qed.

Lemma sky_weighted_composite :
  exists p1 p2,
    photo_at (flat_image (Num 1) 25) 5 5 2 2 (plain true null_interpolation) = Ok p1 /\
    photo_at (flat_image (Num 3) 25) 5 5 2 2 (plain true null_interpolation) = Ok p2 /\
    weighted_average same_num [photo_read_w p1 tt true; photo_read_w p2 tt true] (Num 0 : ar_num) = Ok (2, Num 3).
Proof.
  destruct (read_sky_5x5 (Num 1) (Num 0) (Num 1)) as (p1 & E1 & R1); [discriminate..|].
  destruct (read_sky_5x5 (Num 3) (Num 1) (Num 1)) as (p2 & E2 & R2); [discriminate..|].
  exists p1, p2. repeat (split; [assumption|]).
  unfold weighted_average; cbn [wsum_loop a_of_Z ar_num]. rewrite R1. cbn [bind wsum_loop a_of_Z ar_num].
  rewrite R2. cbn -[Rlt_bool]. replace (0 + 0 + 0)%R with 0%R by ring.
  rewrite Rlt_bool_false by lra. reflexivity.
Qed.

(** Nibble larger than the image: accepted, then read outside the image. *)
Lemma wide_nibble_reads_outside :
  exists p : photo ar_num unit,
    photo_new (A := ar_num) (flat_image (Num 1) 4) 2 2
      (Some (Config (Nibbles 0 3 0 0) false null_interpolation null_correction)) (Some (fixed_geometry 5 1)) = Ok p /\
    photo_read p tt (Num 0) = UB ub_access.
Proof. eexists. split; [reflexivity|]. run_read. reflexivity. Qed.

(** ** Preparing an image *)

Lemma nth_error_combine {B C} (l : list B) : forall (m : list C) i,
  nth_error (combine l m) i =
  match nth_error l i, nth_error m i with Some b, Some c => Some (b, c) | _, _ => None end.
Proof.
  induction l as [|b l IH]; intros [|c m] [|i]; cbn; try reflexivity.
  - destruct (nth_error l i); reflexivity.
  - apply IH.
Qed.

Section Prepare.
Context {A : arith}.
Implicit Types (img f : list A) (flat : option (list A * Z * Z)).

Lemma flat_field_ok f img samples lines :
  length f = length img ->
  exists img', flat_field_correct (A := A) (Some (f, samples, lines)) img samples lines = Ok img' /\
    length img' = length img /\
    forall i, nth_error img' i =
      match nth_error img i, nth_error f i with Some a, Some b => Some (a_sub A a b) | _, _ => None end.
Proof.
  intros L. unfold flat_field_correct. rewrite !Z.eqb_refl. cbn [negb orb].
  rewrite L, Nat.eqb_refl. cbn [negb]. eexists. split; [reflexivity|].
  split; [rewrite map_length, combine_length; lia|].
  intros i. rewrite nth_error_map, nth_error_combine.
  destruct (nth_error img i), (nth_error f i); reflexivity.
Qed.

Lemma flat_field_mismatch f fs fl img samples lines h v :
  fs <> samples \/ fl <> lines ->
  prepare (A := A) (Some (f, fs, fl)) h v img samples lines = Throw runtime_error.
Proof.
  intros H. unfold prepare, flat_field_correct.
  replace (negb (fs =? samples) || negb (fl =? lines)) with true; [reflexivity|].
  destruct (Z.eqb_spec fs samples), (Z.eqb_spec fl lines); cbn; try reflexivity. tauto.
Qed.

Lemma prepare_ok flat h v img samples lines :
  fits samples lines -> Z.of_nat (length img) = (samples * lines)%Z ->
  (forall f fs fl, flat = Some (f, fs, fl) -> fs = samples /\ fl = lines /\ length f = length img) ->
  exists img', prepare flat h v img samples lines = Ok img' /\ length img' = length img /\
    forall k i, (k < Z.to_nat lines)%nat -> (i < Z.to_nat samples)%nat ->
      pixel img' (Z.to_nat samples) k i =
      flat_pixel flat (Z.to_nat samples) (if v then Z.to_nat lines - 1 - k else k)%nat
        (if h then Z.to_nat samples - 1 - i else i)%nat img.
Proof.
  intros F L Hf.
  assert (S1 : exists i1, flat_field_correct flat img samples lines = Ok i1 /\ length i1 = length img /\
             forall k i, pixel i1 (Z.to_nat samples) k i = flat_pixel flat (Z.to_nat samples) k i img).
  { destruct flat as [[[f fs] fl]|].
    - destruct (Hf f fs fl eq_refl) as (-> & -> & Lf).
      destruct (flat_field_ok f img samples lines Lf) as (i1 & E & L1 & N). exists i1.
      split; [exact E|]. split; [exact L1|]. intros k i. apply N.
    - exists img. auto. }
  destruct S1 as (i1 & E1 & L1 & N1). unfold prepare. rewrite E1. cbn [bind].
  assert (S2 : exists i2, (if h then invert_samples i1 samples lines else Ok i1) = Ok i2 /\ length i2 = length i1 /\
             forall k i, (k < Z.to_nat lines)%nat -> (i < Z.to_nat samples)%nat ->
               pixel i2 (Z.to_nat samples) k i = pixel i1 (Z.to_nat samples) k (if h then Z.to_nat samples - 1 - i else i)%nat).
  { destruct h.
    - destruct (invert_samples_ok i1 samples lines F) as (i2 & E & L2 & N); [lia|]. exists i2. auto.
    - exists i1. auto. }
  destruct S2 as (i2 & E2 & L2 & N2). rewrite E2. cbn [bind].
  assert (S3 : exists i3, (if v then invert_lines i2 samples lines else Ok i2) = Ok i3 /\ length i3 = length i2 /\
             forall k i, (k < Z.to_nat lines)%nat -> (i < Z.to_nat samples)%nat ->
               pixel i3 (Z.to_nat samples) k i = pixel i2 (Z.to_nat samples) (if v then Z.to_nat lines - 1 - k else k)%nat i).
  { destruct v.
    - destruct (invert_lines_ok i2 samples lines F) as (i3 & E & L3 & N); [lia|]. exists i3. auto.
    - exists i2. auto. }
  destruct S3 as (i3 & E3 & L3 & N3). exists i3. split; [exact E3|]. split; [congruence|].
  intros k i Hk Hi. rewrite N3 by assumption. rewrite N2 by (destruct v; lia). apply N1.
Qed.

End Prepare.

(** Pixels 0, 1, 1, 1 at fractions (0.9, 0.9). *)
Lemma interpolation_overshoots :
  exists v, interpolate (A := ar_num) (bilinear_new 3 3 no_nibbles)
              [Num 0; Num 1; Num 0; Num 1; Num 1; Num 0; Num 0; Num 0; Num 0]
              (Num (9 / 10)) (Num (9 / 10)) (Num 0) = Ok (true, Num v) /\
    (max4 0 1 1 1 < v)%R.
Proof.
  set (img := [Num 0; Num 1; Num 0; Num 1; Num 1; Num 0; Num 0; Num 0; Num 0] : list ar_num).
  assert (T : num_size (Num (9 / 10)) = Ok 0).
  { unfold num_size. replace (Ztrunc (9 / 10)) with 0; [reflexivity|].
    rewrite Ztrunc_floor by lra. symmetry. apply Zfloor_imp. cbn. lra. }
  destruct (interpolate_real (bilinear_new 3 3 no_nibbles) img (9/10) (9/10) (Num 0) 0 0) as
    [[N _]|(_ & q & Q & [[U _]|(U & v & E & _ & F)])]; try assumption; try (unfold size_mod; lia).
  - cbv [window_ok bilinear_new no_nibbles bl_samples bl_left bl_right bl_top bl_bottom n_left n_right n_top n_bottom
      img length Z.of_nat]. rewrite !wrap_id by (unfold size_mod; lia). unfold size_mod. lia.
  - exfalso. apply N. cbv [inside bilinear_new no_nibbles bl_samples bl_left bl_right bl_top bl_bottom n_left n_right n_top n_bottom].
    rewrite !wrap_id by (unfold size_mod; lia). lia.
  - exfalso. apply U. destruct Q as (Q1 & Q2 & _). unfold img in Q1, Q2. cbn in Q1, Q2.
    injection Q1 as Q1. injection Q2 as Q2. left. rewrite <- Q1, <- Q2. split; discriminate.
  - exists v. split; [exact E|].
    assert (Eq : q = Quad (Num 0) (Num 1) (Num 1) (Num 1)).
    { destruct Q as (Q1 & Q2 & Q3 & Q4). unfold img in *. destruct q; cbn in *.
      injection Q1 as <-. injection Q2 as <-. injection Q3 as <-. injection Q4 as <-. reflexivity. }
    rewrite (F _ _ _ _ Eq). unfold max4. rewrite (Rmax_right 0 1) by lra. rewrite (Rmax_left 1 1) by lra.
    rewrite (Rmax_left 1 1) by lra. lra.
Qed.
