(** Property theorems for the semantic actions on input files (C66, C67, C68,
    C93).  The functions the actions call (std::fmod, the conversion of
    latitudes, the constructors of the map factories, opening of images, the
    members of ViewingGeometry) are arbitrary. *)
From Coq Require Import List ZArith Bool String.
From Flocq Require Import Core BinarySingleNaN.
From Verif Require Import Base Flt Num Spheroid_Model Extrema_Model Entry_Model Parse_Model Parse_Spec Parse_Proofs.
Import ListNotations.
Open Scope Z_scope.

Section Props.
Context (fmod : double -> double -> double) (degree : double) (centric : body -> double -> double) (au : double).
Context (construct : projection -> option exn) (opens : string -> option exn)
  (refuses : body -> list vcall -> vcall -> option exn).
Local Notation run := (run_parser fmod degree centric au construct opens refuses).
Local Notation means := (means fmod degree centric au construct opens refuses).

(** C66, user files that give both intervals, no limits and nibble values below
    2^32: what they give is the default of all maps, and what they do not give
    is as without a user file. *)
Theorem C66_user_file_partial : forall u ts cmds, followed u -> unmixed ts ->
  run (texts (Some u) ts) = Ok (Some cmds) <->
  exists d, user_says defaults_new u = Some d /\ Forall2 (means d) (maps_of ts) cmds.
Proof. exact (run_followed fmod degree centric au construct opens refuses). Qed.

(** Without a user file: 10 degrees, no limits, no nibbling; by the meaning of
    the entries alone. *)
Theorem C66_internal : forall ts cmds, unmixed ts ->
  run (texts None ts) = Ok (Some cmds) <->
  Forall2 (means (Defaults (double_of_Z 10) (double_of_Z 10) None None (Nibbles 0 0 0 0))) (maps_of ts) cmds.
Proof. exact (run_internal fmod degree centric au construct opens refuses). Qed.

(** C67, where no LATITUDE or SIMPLE_C without a type follows LATITUDE: GRAPHIC:
    each map gives the command it gives alone. *)
Theorem C67_alone_partial : forall u ts cmds, unmixed ts ->
  run (texts u ts) = Ok (Some cmds) <->
  run (texts u []) <> Ok None /\ (forall e, run (texts u []) <> Throw e) /\
  Forall2 (fun m c => run (texts u [(m, [])]) = Ok (Some [c])) (maps_of ts) cmds.
Proof. exact (run_alone fmod degree centric au construct opens refuses). Qed.

(** C68: the numbers decide nothing but whether the map is accepted, and they
    must be as they should. *)
Theorem C68_numbers : forall u ts cmds,
  run (texts u ts) = Ok (Some cmds) <->
  Forall numbered (maps_of ts) /\ run (texts u (strip_texts ts)) = Ok (Some cmds).
Proof. exact (numbers_decide fmod degree centric au construct opens refuses). Qed.

(** C93 *)
Theorem C93_null_pointers : forall l u, run l <> UB u.
Proof. exact (run_defined fmod degree centric au construct opens refuses). Qed.
End Props.
Print Assumptions C66_user_file_partial.
Print Assumptions C66_internal.
Print Assumptions C67_alone_partial.
Print Assumptions C68_numbers.
Print Assumptions C93_null_pointers.

Section Cases.
Context (fmod : double -> double -> double) (degree : double) (centric : body -> double -> double) (au : double).
Context (opens : string -> option exn) (refuses : body -> list vcall -> vcall -> option exn).
Local Notation run := (run_parser fmod degree centric au (fun _ => None) opens refuses).
Local Notation means := (means fmod degree centric au (fun _ => None) opens refuses).

(** C66: data limits in the user file are accepted and lost; with
    LAT_GRID_INTERVAL alone the other interval is 0, not 10. *)
Theorem C66_refuted :
  (exists u d m c,
     ue_range u = min_max (double_of_Z 1) (double_of_Z 5) /\ user_says defaults_new u = Some d /\
     run [user_text u; map_text m []] = Ok (Some [c]) /\
     map if_limits (mc_images c) = [Extrema (T := ct F64) None None] /\ ~ means d m c) /\
  (exists u d m c,
     ue_intervals u = lat_interval (double_of_Z 15) /\ user_says defaults_new u = Some d /\
     run [user_text u; map_text m []] = Ok (Some [c]) /\
     mc_grid c = Some (double_of_Z 15, double_of_Z 0) /\ ~ means d m c).
Proof.
  exact (conj (user_limits_lost fmod degree centric au opens refuses) (user_interval_lost fmod degree centric au opens refuses)).
Qed.

(** C67: after LATITUDE: GRAPHIC, a LATITUDE plane without a type is graphic
    too, in the same file and in the next. *)
Theorem C67_refuted : exists m1 m2 c1 c2 c2',
  run [map_text m1 []] = Ok (Some [c1]) /\ run [map_text m2 []] = Ok (Some [c2]) /\
  run [map_text m1 [m2]] = Ok (Some [c1; c2']) /\ run [map_text m1 []; map_text m2 []] = Ok (Some [c1; c2']) /\
  c2 <> c2'.
Proof. exact (type_remains fmod degree centric au opens refuses). Qed.

(** C68: a number need not be the place of the plane. *)
Theorem C68_position_refuted : exists m c,
  me_planes m = Some (digit 2) /\ pe_number (me_plane m) = None /\ map pe_number (me_more_planes m) = [Some (digit 1)] /\
  run [map_text m []] = Ok (Some [c]).
Proof. exact (number_not_position fmod degree centric au opens refuses). Qed.

Example C66_user_file_case :
  let u := UserEntry (both_intervals (double_of_Z 15)) no_range [(left_side, digit 3)] in
  let m := small_map (Some (true, None)) (T_mercator None) None (simple_plane T_longitude) [] in
  followed u /\ exists c, run [user_text u; map_text m []] = Ok (Some [c]) /\ mc_grid c = Some (double_of_Z 15, double_of_Z 15).
Proof. exact (user_case fmod degree centric au opens refuses). Qed.

Example C67_alone_case :
  let m k := small_map None (T_mercator None) None (simple_plane (T_latitude (Some k))) [] in
  unmixed [(m Graphic, [m Centric])] /\
  exists c1 c2, run [map_text (m Graphic) [m Centric]] = Ok (Some [c1; c2]) /\ run [map_text (m Centric) []] = Ok (Some [c2]).
Proof. exact (types_apart fmod degree centric au opens refuses). Qed.

Example C68_numbers_case :
  let m := small_map None (T_mercator None) (Some (digit 2)) (numbered_plane 1 T_longitude) [numbered_plane 2 T_longitude] in
  numbered m /\ exists c, run [map_text m []] = Ok (Some [c]) /\ List.length (mc_images c) = 2%nat.
Proof. exact (numbers_written fmod degree centric au opens refuses). Qed.

Example C68_wrong_case :
  let m := small_map None (T_mercator None) (Some (digit 2)) (numbered_plane 2 T_longitude) [numbered_plane 1 T_longitude] in
  ~ numbered m /\ forall cmds, run [map_text m []] <> Ok (Some cmds).
Proof. exact (numbers_wrong fmod degree centric au opens refuses). Qed.

(** The user's nibbling goes to the defaults, the image of no plane. *)
Example C93_null_pointers_case :
  run [user_text (UserEntry (both_intervals (double_of_Z 15)) no_range [(left_side, digit 3)])] = Ok (Some []).
Proof. reflexivity. Qed.
End Cases.
Print Assumptions C66_refuted.
Print Assumptions C67_refuted.
Print Assumptions C68_position_refuted.
