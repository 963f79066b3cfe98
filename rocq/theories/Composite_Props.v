(** Property theorems C17-C20: compositing strategies of mosaics. *)
From Coq Require Import List ZArith Reals Lra Lia Permutation.
From Verif Require Import Base Num Photo_Model Composite_Spec Photo_Spec Composite_Proofs PhotoReal_Proofs.
Import ListNotations.
Open Scope R_scope.

(** Images for the cases: one with a constant datum, one without data that
    scribbles 3 into the variable. *)
Definition const_image (r : R) : image ar_num := fun _ => Ok (true, Num r).
Definition empty_image : image ar_num := fun _ => Ok (false, Num 3).
Definition silent_image : image ar_num := fun d => Ok (false, d).

Lemma const_answers r : answers (const_image r) (Some r).
Proof. intros d _. reflexivity. Qed.
Lemma empty_answers : answers empty_image None.
Proof. intros d _. exists (Num 3). split; [reflexivity|discriminate]. Qed.

(** C17, for images that answer at the point (no NaN pixel under it): the
    earliest image with data decides, and without any there is no data.
    Missing: images whose pixel is NaN, for which the claim is refuted below. *)
Theorem C17_first_read_partial :
  (forall ims os k r d, Forall2 answers ims os -> d <> NaN ->
     nth_error os k = Some (Some r) ->
     (forall j, (j < k)%nat -> nth_error os j = Some None) ->
     first_read ims d = Ok (1%Z, Num r)) /\
  (forall ims os d, Forall2 answers ims os -> d <> NaN -> (forall o, In o os -> o = None) ->
     exists d', first_read ims d = Ok (0%Z, d')).
Proof. exact (conj first_read_hit first_read_miss). Qed.
Print Assumptions C17_first_read_partial.

(** Photo images without NaN pixels do answer, with every strategy MaRC
    installs; without interpolation they leave the variable alone. *)
Theorem C17_photo_images_answer :
  forall P (img : list ar_num) samples lines c (g : geometry ar_num P) p pt,
  built img samples lines c g p -> pixel_position g pt ->
  (forall v, In v img -> v <> NaN) -> c_correct c = null_correction ->
  exists o, answers (photo_read p pt) o /\
    (c_interp c = null_interpolation -> answers_clean (photo_read p pt) o).
Proof. exact @photo_answers. Qed.
Print Assumptions C17_photo_images_answer.

(** C17 is false for images with NaN pixels (blank FITS pixels): the first
    image has no data at the point, the second has 5, the composite has none. *)
Theorem C17_first_read_refuted :
  exists p1 p2,
    photo_at (flat_image NaN 4) 2 2 1 1 (plain false null_interpolation) = Ok p1 /\
    photo_at (flat_image (Num 5) 4) 2 2 1 1 (plain false null_interpolation) = Ok p2 /\
    photo_read p2 tt (Num 0) = Ok (true, Num 5) /\
    first_read [photo_read p1 tt; photo_read p2 tt] (Num 0 : ar_num) = Ok (0%Z, NaN) /\
    unweighted_average same_num [photo_read p1 tt; photo_read p2 tt] (Num 0 : ar_num) = Ok (0%Z, NaN).
Proof. exact first_read_poisoned. Qed.
Print Assumptions C17_first_read_refuted.

Example C17_case :
  Forall2 answers [empty_image; const_image 2; const_image 5] [None; Some 2; Some 5] /\
  first_read [empty_image; const_image 2; const_image 5] (Num 0 : ar_num) = Ok (1%Z, Num 2) /\
  first_read [empty_image; empty_image] (Num 0 : ar_num) = Ok (0%Z, Num 3).
Proof.
  split; [|split; reflexivity].
  repeat constructor; (apply empty_answers || apply const_answers).
Qed.

(** C18, for images that answer at the point.  Missing: NaN pixels (see
    C17_first_read_refuted, last line). *)
Theorem C18_unweighted_partial : forall ims os d,
  Forall2 answers ims os -> d <> NaN -> (2 <= length (contributions os))%nat ->
  unweighted_average same_num ims d = Ok (Z.of_nat (length (contributions os)), Num (mean (contributions os))) /\
  (forall lo hi, (forall x, In x (contributions os) -> lo <= x <= hi) ->
     lo <= mean (contributions os) <= hi) /\
  (forall ims' os' d', Forall2 answers ims' os' -> d' <> NaN ->
     Permutation (contributions os) (contributions os') ->
     unweighted_average same_num ims' d' = unweighted_average same_num ims d).
Proof. exact unweighted_facts. Qed.
Print Assumptions C18_unweighted_partial.

(** The count is the number of contributors, however many there are. *)
Theorem C18_count_partial : forall ims os d,
  Forall2 answers ims os -> d <> NaN ->
  exists d', unweighted_average same_num ims d = Ok (Z.of_nat (length (contributions os)), d') /\
    ((2 <= length (contributions os))%nat -> d' = Num (mean (contributions os))).
Proof. exact unweighted_mean. Qed.
Print Assumptions C18_count_partial.

Example C18_case :
  exists v, unweighted_average same_num [const_image 2; empty_image; const_image 5] (Num 0 : ar_num) = Ok (2%Z, Num v) /\
    v = 7 / 2.
Proof.
  destruct (C18_unweighted_partial [const_image 2; empty_image; const_image 5] [Some 2; None; Some 5] (Num 0))
    as [E _]; [|discriminate|cbn; lia|].
  - repeat constructor; (apply empty_answers || apply const_answers).
  - eexists. split; [exact E|]. unfold mean, total. cbn. lra.
Qed.

(** C19, for images that answer at the point. *)
Theorem C19_weighted_partial : forall ims os d,
  Forall2 wanswers ims os -> d <> NaN -> (2 <= length (contributions os))%nat ->
  0 < weights (contributions os) ->
  weighted_average same_num ims d = Ok (Z.of_nat (length (contributions os)), Num (wmean (contributions os))) /\
  (forall lo hi, (forall p, In p (contributions os) -> 0 <= snd p /\ lo <= fst p <= hi) ->
     lo <= wmean (contributions os) <= hi).
Proof. exact weighted_facts. Qed.
Print Assumptions C19_weighted_partial.

(** The total weight is not positive in practice: with sky removal every
    weight is zero (C24) and the composite is just the last datum. *)
Theorem C19_sky_removal_refuted :
  exists p1 p2,
    photo_at (flat_image (Num 1) 25) 5 5 2 2 (plain true null_interpolation) = Ok p1 /\
    photo_at (flat_image (Num 3) 25) 5 5 2 2 (plain true null_interpolation) = Ok p2 /\
    weighted_average same_num [photo_read_w p1 tt true; photo_read_w p2 tt true] (Num 0 : ar_num) = Ok (2%Z, Num 3).
Proof. exact sky_weighted_composite. Qed.
Print Assumptions C19_sky_removal_refuted.

Example C19_case :
  let heavy : wimage ar_num := fun _ _ => Ok (true, Num 10, Num 3) in
  let light : wimage ar_num := fun _ _ => Ok (true, Num 2, Num 1) in
  exists v, weighted_average same_num [heavy; light] (Num 0 : ar_num) = Ok (2%Z, Num v) /\ v = 8.
Proof.
  intros heavy light.
  destruct (C19_weighted_partial [heavy; light] [Some (10, 3); Some (2, 1)] (Num 0)) as [E _];
    [|discriminate|cbn; lia|unfold weights, total; cbn; lra|].
  - repeat constructor; intros d w _; reflexivity.
  - eexists. split; [exact E|]. unfold wmean, wtotal, weights, total. cbn. lra.
Qed.

(** C20, for images that leave the variable alone when they have no data. *)
Theorem C20_single_partial : forall ims wims os wos d r wt,
  d <> NaN ->
  Forall2 answers_clean ims os -> contributions os = [r] ->
  Forall2 wanswers_clean wims wos -> contributions wos = [(r, wt)] ->
  first_read ims d = Ok (1%Z, Num r) /\
  unweighted_average same_num ims d = Ok (1%Z, Num r) /\
  weighted_average same_num wims d = Ok (1%Z, Num r).
Proof. exact single_contributor. Qed.
Print Assumptions C20_single_partial.

(** C20 is false otherwise: the second image, interpolated and read at its
    edge, has no data but overwrites the 5 of the only contributor with 9. *)
Theorem C20_single_refuted :
  exists p1 p2,
    photo_at (flat_image (Num 5) 4) 2 2 1 1 (plain false null_interpolation) = Ok p1 /\
    photo_at (flat_image (Num 9) 4) 2 2 1 1 (plain false (interpolate (bilinear_new 2 2 no_nibbles))) = Ok p2 /\
    photo_read p1 tt (Num 0) = Ok (true, Num 5) /\
    photo_read p2 tt (Num 5) = Ok (false, Num 9) /\
    unweighted_average same_num [photo_read p1 tt; photo_read p2 tt] (Num 0 : ar_num) = Ok (1%Z, Num 9).
Proof. exact single_clobbered. Qed.
Print Assumptions C20_single_refuted.

Example C20_case :
  Forall2 answers_clean [silent_image; const_image 4; silent_image] [None; Some 4; None] /\
  unweighted_average same_num [silent_image; const_image 4; silent_image] (Num 0 : ar_num) = Ok (1%Z, Num 4).
Proof. split; [repeat constructor; intros d _; reflexivity|reflexivity]. Qed.

(** C77: with any of the three strategies a mosaic has data exactly where an
    image contributes (prior contents not NaN, cf. C17 for the NaN case). *)
Theorem C77_mosaic_has_data_partial : forall ims os wims wos d,
  d <> NaN -> Forall2 answers ims os -> Forall2 wanswers wims wos ->
  (exists v, mosaic_read (first_read ims) d = Ok (negb (Nat.eqb (length (contributions os)) 0), v)) /\
  (exists v, mosaic_read (unweighted_average same_num ims) d = Ok (negb (Nat.eqb (length (contributions os)) 0), v)) /\
  (exists v, mosaic_read (weighted_average same_num wims) d = Ok (negb (Nat.eqb (length (contributions wos)) 0), v)).
Proof. exact mosaic_has_data. Qed.
Print Assumptions C77_mosaic_has_data_partial.

Example C77_case :
  Forall2 answers [empty_image; const_image 4] [None; Some 4] /\
  mosaic_read (first_read [empty_image; const_image 4]) (Num 0 : ar_num) = Ok (true, Num 4) /\
  mosaic_read (first_read [empty_image]) (Num 0 : ar_num) = Ok (false, Num 3).
Proof.
  split; [|split; reflexivity].
  constructor; [apply empty_answers|]. constructor; [intros d Hd; reflexivity|constructor].
Qed.
