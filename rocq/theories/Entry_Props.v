(** C64, C65, C69, C90, C91, C92: values of keywords. *)
From Coq Require Import List ZArith Bool Reals Lra Lia.
From Flocq Require Import Core BinarySingleNaN.
From Verif Require Import Base Flt Num Spheroid_Model Proj_Model Params_Model Virtual_Model Virtual_Spec
  Entry_Model Entry_Spec Entry_Proofs.
Import ListNotations.
Open Scope R_scope.

(** C64 over the reals: a longitude is accepted exactly up to 360 degrees and
    keeps its direction, counted as the body's longitudes are. *)
Theorem C64_direction : forall prograde s x,
  (Rabs x <= 360 -> exists r,
     longitude (A := ar_num) num_fmod prograde s (Num x) = Parsed (Num r : ar_num) /\ 0 <= r <= 360 /\
     same_direction (eastward prograde r) (entered prograde s x)) /\
  (360 < Rabs x -> longitude (A := ar_num) num_fmod prograde s (Num x) = Rejected).
Proof. exact longitude_real. Qed.
Print Assumptions C64_direction.

(** C64 in doubles. *)
Theorem C64_doubles : forall fmod, fmod_spec fmod -> forall prograde s (x : double), is_finite x = true ->
  (Rabs (B2R x) <= 360 -> exists r : double,
     longitude (A := ar_double) fmod prograde s x = Parsed (r : ar_double) /\ is_finite r = true /\
     0 <= B2R r <= 360 /\
     close_direction (bpow radix2 (-43)) (eastward prograde (B2R r)) (entered prograde s (B2R x))) /\
  (360 < Rabs (B2R x) -> longitude (A := ar_double) fmod prograde s x = Rejected).
Proof. exact longitude_double_ok. Qed.
Print Assumptions C64_doubles.

(** What is not a number passes the range check. *)
Theorem C64_not_a_number : forall fmod, fmod_spec fmod -> forall prograde s,
  exists r : double, longitude (A := ar_double) fmod prograde s (B754_nan : double) = Parsed (r : ar_double) /\ is_nan r = true.
Proof. exact longitude_nan. Qed.
Print Assumptions C64_not_a_number.

(** 90 E on a body that rotates prograde is its longitude 270. *)
Example C64_case :
  exists r, longitude (A := ar_num) num_fmod true East (Num 90) = Parsed (Num r : ar_num) /\ same_direction r 270.
Proof.
  destruct (proj1 (longitude_real true East 90) ltac:(rewrite Rabs_pos_eq; lra)) as (r & E & _ & n & D).
  exists r. split; [exact E|]. cbn in D. exists (- n - 1)%Z. rewrite minus_IZR, opp_IZR. lra.
Qed.

(** C65 in doubles: a latitude is accepted exactly in its range, and signed. *)
Theorem C65_range : forall s (x : double),
  (forall v, is_finite x = true -> entered_latitude s (B2R x) v ->
     exists r : double, latitude_sub (A := ar_double) (Bopp (prec := 53) (emax := 1024)) s x = Parsed (r : ar_double) /\
       is_finite r = true /\ B2R r = v) /\
  (is_finite x = false \/ (forall v, ~ entered_latitude s (B2R x) v) ->
     latitude_sub (A := ar_double) (Bopp (prec := 53) (emax := 1024)) s x = Rejected).
Proof. exact latitude_double. Qed.
Print Assumptions C65_range.

(** C65 over the reals, with the kind of latitude: the result is planetocentric. *)
Theorem C65_kind : forall eq pol s k x, 0 < pol -> pol <= eq ->
  (forall v, entered_latitude s x v ->
     exists r, latitude (A := ar_num) num_opp (Num (PI / 180)) (num_centric eq pol) s k (Num x) = Parsed (Num r : ar_num) /\
       -90 <= r <= 90 /\
       match k with
       | Centric => r = v
       | Graphic => graphic_latitude eq pol (r * (PI / 180)) = v * (PI / 180)
       end) /\
  ((forall v, ~ entered_latitude s x v) ->
     latitude (A := ar_num) num_opp (Num (PI / 180)) (num_centric eq pol) s k (Num x) = Rejected).
Proof. exact latitude_real. Qed.
Print Assumptions C65_kind.

Example C65_case :
  latitude (A := ar_num) num_opp (Num (PI / 180)) (num_centric 2 1) South Centric (Num 30) = Parsed (Num (-30) : ar_num) /\
  latitude (A := ar_num) num_opp (Num (PI / 180)) (num_centric 2 1) North Graphic (Num (-30)) = Rejected.
Proof.
  split.
  - destruct (proj1 (latitude_real 2 1 South Centric 30 ltac:(lra) ltac:(lra)) (-30)) as (r & E & _ & ->); [cbn; lra|]. exact E.
  - apply (proj2 (latitude_real 2 1 North Graphic (-30) ltac:(lra) ltac:(lra))). intros v [H _]. lra.
Qed.

(** C69 over the reals: exactly the descriptions of spheroids are accepted. *)
Theorem C69_accepted : forall e r1 r2, body_radii (A := ar_num) e = Ok (r1, r2) ->
  exists eq pol, r1 = Num eq /\ r2 = Num pol /\ 0 < pol /\ pol <= eq /\ described e eq pol.
Proof. exact radii_accepted. Qed.
Print Assumptions C69_accepted.

Theorem C69_described : forall e eq pol, 0 < pol -> pol <= eq -> described e eq pol ->
  body_radii e = Ok (Num eq : ar_num, Num pol : ar_num).
Proof. exact radii_described. Qed.
Print Assumptions C69_described.

(** C69 in doubles, together with the constructor of the spheroid. *)
Theorem C69_doubles : forall pro (e : radii_entry ar_double),
  (radii_usable e -> exists eq pol : double,
     body_spheroid pro e = Ok (Spheroid pro (eq : ar_double) (pol : ar_double)) /\ radii_made e eq pol) /\
  (~ radii_usable e -> body_spheroid pro e = Throw invalid_argument).
Proof. exact radii_doubles. Qed.
Print Assumptions C69_doubles.

(** Called with three values, [validate] accepts a disc, radii that contradict
    the flattening, and what is not a number. *)
Theorem C69_validate_refuted :
  radii_validate (A := ar_num) (Radii (Num 1 : ar_num) (Num 0 : ar_num) (Num (1 / 2) : ar_num)) =
    Ok (Radii (Num 1 : ar_num) (Num 0 : ar_num) (Num (1 / 2) : ar_num)) /\
  radii_validate (A := ar_num) (Radii (Num 3 : ar_num) (Num 2 : ar_num) (Num (1 / 2) : ar_num)) =
    Ok (Radii (Num 3 : ar_num) (Num 2 : ar_num) (Num (1 / 2) : ar_num)) /\
  radii_validate (A := ar_num) (Radii (NaN : ar_num) (Num 2 : ar_num) (Num (1 / 2) : ar_num)) =
    Ok (Radii (NaN : ar_num) (Num 2 : ar_num) (Num (1 / 2) : ar_num)).
Proof. exact validate_three. Qed.
Print Assumptions C69_validate_refuted.

Example C69_case : body_radii (A := ar_num) (given_pol (Num 3 : ar_num) (Num (1 / 4) : ar_num)) = Ok (Num 4 : ar_num, Num 3 : ar_num).
Proof. apply radii_described; [lra|lra|]. split; [reflexivity|]. f_equal. field. Qed.

(** C90: position angles. *)
Theorem C90_direction : forall t x,
  (Rabs x <= 360 -> exists r,
     position_angle (A := ar_num) num_fmod t (Num x) = Parsed (Num r : ar_num) /\ 0 <= r <= 360 /\
     same_direction r (turned t x)) /\
  (360 < Rabs x -> position_angle (A := ar_num) num_fmod t (Num x) = Rejected).
Proof. exact position_real. Qed.
Print Assumptions C90_direction.

Theorem C90_doubles : forall fmod, fmod_spec fmod -> forall t (x : double), is_finite x = true ->
  (Rabs (B2R x) <= 360 -> exists r : double,
     position_angle (A := ar_double) fmod t x = Parsed (r : ar_double) /\ is_finite r = true /\
     0 <= B2R r <= 360 /\ close_direction (bpow radix2 (-43)) (B2R r) (turned t (B2R x))) /\
  (360 < Rabs (B2R x) -> position_angle (A := ar_double) fmod t x = Rejected).
Proof. exact position_double_ok. Qed.
Print Assumptions C90_doubles.

Example C90_case : exists r, position_angle (A := ar_num) num_fmod CW (Num (-300)) = Parsed (Num r : ar_num) /\ same_direction r 300.
Proof.
  destruct (proj1 (position_real CW (-300)) ltac:(rewrite Rabs_left; lra)) as (r & E & _ & n & D).
  exists r. split; [exact E|]. exists n. cbn in D. lra.
Qed.

(** C91, texts of digits with an optional sign: the value read is the one
    written, and all 64 bit integers are read. *)
Theorem C91_integers_partial : forall n, digits (n_digits n) -> n_fraction n = None -> n_exponent n = None ->
  (forall v, integer n = Parsed v -> IZR v = denoted n) /\
  (forall v, IZR v = denoted n -> n_digits n <> [] -> (- 2 ^ 63 <= v < 2 ^ 63)%Z -> integer n = Parsed v) /\
  (forall v, IZR v = denoted n -> ~ (- 2 ^ 63 <= v < 2 ^ 63)%Z -> integer n = Rejected).
Proof. exact integer_texts. Qed.
Print Assumptions C91_integers_partial.

(** The sizes of maps and of nibbled edges. *)
Theorem C91_sizes_partial : forall n, digits (n_digits n) -> n_fraction n = None -> n_exponent n = None ->
  (forall v, positive_size n = Parsed v -> IZR v = denoted n /\ (0 < v < 2 ^ 63)%Z) /\
  (forall v, IZR v = denoted n -> n_digits n <> [] -> (0 < v < 2 ^ 63)%Z -> positive_size n = Parsed v) /\
  (forall v, nibble_size n = Parsed v -> IZR v = denoted n /\ (0 <= v < 2 ^ 63)%Z) /\
  (forall v, IZR v = denoted n -> n_digits n <> [] -> (0 <= v < 2 ^ 63)%Z -> nibble_size n = Parsed v).
Proof. exact sizes. Qed.
Print Assumptions C91_sizes_partial.

(** "SAMPLES: 1E3" and "SAMPLES: 1.9" make maps of one sample. *)
Theorem C91_refuted : exists n1 n2,
  denoted n1 = 1000 /\ positive_size n1 = Parsed 1%Z /\
  denoted n2 = 19 / 10 /\ positive_size n2 = Parsed 1%Z.
Proof. exact integers_cut. Qed.
Print Assumptions C91_refuted.

Example C91_case : positive_size (NumText (Some false) [5; 1; 2]%Z None None) = Parsed 512%Z /\
  positive_size (NumText None [0]%Z None None) = Rejected /\ nibble_size (NumText None [0]%Z None None) = Parsed 0%Z.
Proof. repeat split. Qed.

(** C92: a blank value of a map with integers is accepted exactly if a cell
    can hold it. *)
Theorem C92_integer_maps : forall n p, digits (n_digits n) -> n_fraction n = None -> n_exponent n = None ->
  In (p_bitpix p) [8; 16; 32; 64]%Z ->
  (forall z, representable (p_bitpix p) z -> IZR z = denoted n -> n_digits n <> [] ->
     exists q, data_blank n p = Parsed q /\ p_blank q = Some z /\ p_bitpix q = p_bitpix p) /\
  (forall z, IZR z = denoted n -> ~ representable (p_bitpix p) z -> data_blank n p = Rejected).
Proof. exact blank_integer_maps. Qed.
Print Assumptions C92_integer_maps.

(** Otherwise the parser is left by an exception. *)
Theorem C92_other_maps : forall n p v, integer n = Parsed v ->
  (In (p_bitpix p) [-32; -64]%Z -> data_blank n p = Thrown invalid_argument) /\
  (p_bitpix p = 0%Z -> data_blank n p = Thrown runtime_error).
Proof. exact blank_other_maps. Qed.
Print Assumptions C92_other_maps.

Example C92_case : forall p, p_bitpix p = 8%Z ->
  data_blank (NumText None [2; 5; 6]%Z None None) p = Rejected /\
  exists q, data_blank (NumText None [2; 5; 5]%Z None None) p = Parsed q /\ p_blank q = Some 255%Z.
Proof.
  intros p H. unfold data_blank, get_bitpix. rewrite H. split; [reflexivity|].
  exists (set_blank (Some 255%Z) p). split; [reflexivity|]. unfold set_blank, lock. destruct (user_supplied _); reflexivity.
Qed.
