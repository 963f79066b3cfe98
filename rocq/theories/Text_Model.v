(** Input files as texts: the scanner with all its start conditions
    (src/lexer.ll) and the rules of the grammar (src/parse.yy), which lead to
    the trees of [Parse_Model].  [strtod], [pow] and the built-in functions are
    arguments.  Positions of tokens (YY_USER_ACTION, src/lexer.ll:40-51) only
    serve error messages and are left out. *)
From Coq Require Import List ZArith Bool Ascii String.
From Flocq Require Import BinarySingleNaN.
From Verif Require Import Base Flt Num Entry_Model Expr_Model Parse_Model.
Import ListNotations.
Open Scope Z_scope.

(** ** Scanner *)

(** A keyword (by its usual spelling), a unit or suffix, ':' or "text" (for
    UNMATCHED), src/parse.yy:464-528; a _STRING; a token of an expression. *)
Inductive tok := KEY (k : string) | STRING (s : string) | EX (t : token).

(** Start conditions, src/lexer.ll:62-67. *)
Inductive start := INITIAL | in_comment_init | in_comment | in_keyword_token | in_expression | in_string | in_pole.

(** Keywords, src/lexer.ll:158-264: pattern, token and BEGIN, if any. *)
Definition keyword : Type := string * string * option start.
Definition plain (k : string) : keyword := (k, k, None).
Definition begins (b : start) (k : string) : keyword := (k, k, Some b).
Definition keywords : list keyword :=
  [ plain "ALBEQV1"; plain "ALBEQV2"; plain "IDENTITY"; plain "LAMCNF1"; plain "LAMCNF2"; plain "LAMCYLEQ";
    plain "LAMPOLEQ"; plain "MERCATOR"; plain "ORTHO"; plain "P_STEREO"; plain "PERSPECTIVE"; plain "SIMPLE_C";
    plain "SINUSOID";
    begins in_string "MAP";
    begins in_comment_init "AUTHOR"; begins in_comment_init "ORIGIN"; begins in_comment_init "COMMENT";
    begins in_comment_init "XCOMMENT";
    plain "DATA_OFFSET"; plain "DATA_SCALE"; begins in_keyword_token "DATA_TYPE"; plain "DATA_BLANK";
    begins in_keyword_token "GRID"; plain "GRID_INTERVAL"; plain "LAT_GRID_INTERVAL"; plain "LON_GRID_INTERVAL";
    begins in_keyword_token "TYPE"; ("PROJECTION", "TYPE", Some in_keyword_token);
    plain "SAMPLES"; plain "LINES";
    begins in_string "BODY";
    begins in_keyword_token "AVERAGING"; plain "NONE"; plain "WEIGHTED"; plain "UNWEIGHTED";
    plain "PLANES"; plain "PROGRADE"; plain "RETROGRADE"; plain "FLATTENING";
    begins in_keyword_token "OPTIONS"; plain "EQ_RAD"; plain "POL_RAD"; begins in_keyword_token "ROTATION";
    begins in_string "IMAGE"; plain "PHOTO";
    begins in_keyword_token "MU"; begins in_keyword_token "MU0"; begins in_keyword_token "PHASE";
    plain "PLANE"; plain "DATA_MIN"; plain "DATA_MAX"; plain "LO_LAT"; plain "HI_LAT"; plain "LO_LON"; plain "HI_LON";
    begins in_keyword_token "LATITUDE_TYPE";
    ("CENTRIC_LAT", "CENTRIC", None); plain "CENTRIC"; ("GRAPHIC_LAT", "GRAPHIC", None); plain "GRAPHIC";
    begins in_keyword_token "LATITUDE"; plain "LONGITUDE"; begins in_pole "POLE";
    plain "MAX_LAT"; plain "STD_LAT"; plain "STD_LAT_1"; plain "STD_LAT_2";
    begins in_keyword_token "INTERPOLATE"; begins in_keyword_token "REMOVE_SKY";
    plain "NIBBLE"; plain "NIBBLE_LEFT"; plain "NIBBLE_RIGHT"; plain "NIBBLE_TOP"; plain "NIBBLE_BOTTOM";
    begins in_keyword_token "INVERT"; plain "VERTICAL"; plain "HORIZONTAL"; plain "BOTH";
    plain "SAMPLE_CENTER"; plain "LINE_CENTER"; plain "LAT_AT_CENTER"; plain "LON_AT_CENTER";
    plain "SAMPLE_OA"; plain "LINE_OA"; begins in_string "FLAT_FIELD";
    plain "MINNAERT"; plain "AUTO"; plain "TABLE"; begins in_keyword_token "GEOM_CORRECT"; plain "EMI_ANG_LIMIT";
    begins in_keyword_token "TERMINATOR";
    plain "SUB_OBSERV_LAT"; plain "SUB_OBSERV_LON"; plain "POSITION_ANGLE"; plain "SUB_SOLAR_LAT"; plain "SUB_SOLAR_LON";
    plain "RANGE"; plain "FOCAL_LENGTH"; plain "PIXEL_SCALE"; plain "ARCSEC_PER_PIX"; plain "KM_PER_PIXEL";
    plain "BYTE"; plain "SHORT"; plain "LONG"; plain "LONGLONG"; plain "FLOAT"; plain "DOUBLE";
    plain "YES"; ("Y", "YES", None); plain "NO"; ("N", "NO", None) ]%string.

(** What a rule gives, and the start condition it begins, if any. *)
Definition effect : Type := list tok * option start.
Definition text_string (s : text) : string := string_of_list_ascii s.
(** [[:graph:]] in the C locale. *)
Definition is_graph (c : ascii) : bool := (33 <=? code c) && (code c <=? 126).
Definition is_space (c : ascii) : bool := is_blank c || is_newline c.

Definition colon (b : option start) : (text -> nat) * (text -> effect) := (one (Ascii.eqb ":"), fun _ => ([KEY ":"], b)).
Definition word_rule (k : keyword) : (text -> nat) * (text -> effect) :=
  let '(p, t, b) := k in (literal_len (chars p), fun _ => ([KEY t], b)).

(** The rules of the start conditions that include the rules without one, in
    order: those of the condition (src/lexer.ll:70-93), then the others
    (lines 95 and 158-268). *)
Definition own_rules (m : start) : list ((text -> nat) * (text -> effect)) :=
  match m with
  | in_comment_init => [colon (Some in_comment)]
  | in_keyword_token => [colon (Some INITIAL)]
  | in_string => [colon None; (span is_graph, fun s => ([STRING (text_string s)], Some INITIAL))]
  | in_pole =>
      [ colon None;
        word_rule ("N", "N", Some INITIAL)%string; word_rule ("NORTH", "N", Some INITIAL)%string;
        word_rule ("S", "S", Some INITIAL)%string; word_rule ("SOUTH", "S", Some INITIAL)%string ]
  | _ => []
  end.
Definition shared_rules : list ((text -> nat) * (text -> effect)) :=
  colon (Some in_expression) :: map word_rule keywords ++
  [ (fun s => match one (Ascii.eqb "#") s with O => O | _ => span (fun c => negb (is_newline c)) s end, fun _ => ([], None));
    (span is_space, fun _ => ([], None));
    (one (fun c => negb (is_newline c)), fun _ => ([KEY "text"], None)) ].

(** Flex takes the rule with the longest match, the first one among equals. *)
Fixpoint best_rule (rs : list ((text -> nat) * (text -> effect))) (s : text) (best : nat * (text -> effect)) :
    nat * (text -> effect) :=
  match rs with
  | [] => best
  | (f, a) :: rs => best_rule rs s (if (fst best <? f s)%nat then (f s, a) else best)
  end.

(** The tokens of <expression> ([Expr_Model.rules]), src/lexer.ll:96-156. *)
Definition give (t : token) : tok :=
  match t with TOther s => KEY (text_string s) | TUnmatched => KEY "text" | t => EX t end.
Definition expression_effect (a : action) (m : text) : effect :=
  match a with
  | Skip => ([], None)
  | Give t => ([give t], None)
  | Number => ([EX (TNum m)], None)
  | Word =>
      match getsym symrec_new (text_string m) with
      | Some (Fnct f) => ([EX (TFun f)], None)
      | Some (Var _) => ([EX (TVar (text_string m))], None)
      | None => ([KEY "text"], None)
      end
  | Leave t => ([give t], Some INITIAL)
  | EndOfLine => ([], Some INITIAL)
  end.

(** One match: its length and effect.  <comment> matches the rest of the line,
    also if it is empty (src/lexer.ll:75-80). *)
Definition flex (m : start) (s : text) : nat * effect :=
  match m with
  | in_comment =>
      let n := span (fun c => negb (is_newline c)) s in (n, ([STRING (text_string (firstn n s))], Some INITIAL))
  | in_expression => let '(n, a) := match_at s in (n, expression_effect a (firstn n s))
  | _ => let '(n, f) := best_rule (own_rules m ++ shared_rules) s (O, fun _ => ([], None)) in (n, f (firstn n s))
  end.

(** The tokens up to the end of the file.  [fuel] bounds the number of matches. *)
Fixpoint scan_file (fuel : nat) (m : start) (s : text) : list tok :=
  match fuel with
  | O => []
  | S fuel =>
      match s with
      | [] => []
      | _ =>
          let '(n, (ts, b)) := flex m s in
          ts ++ scan_file fuel (match b with Some m' => m' | None => m end) (skipn n s)
      end
  end.
Definition file_tokens (s : text) : list tok := scan_file (2 * List.length s) INITIAL s.

(** ** Grammar *)

(** Right hand sides of rules, with the value of what they derive.  The values
    are the trees of [Parse_Model]. *)
Inductive bnf : Type -> Type :=
| Empty : bnf unit
| Tok : string -> bnf unit
| Str : bnf string                       (* _STRING *)
| Num : bnf number                       (* NUM as integer *)
| Expr : bnf double                      (* expr *)
| Seq : forall {A B : Type}, bnf A -> bnf B -> bnf (A * B)
| Or : forall {A : Type}, bnf A -> bnf A -> bnf A
| Many : forall {A : Type}, bnf A -> bnf (list A)
| Val : forall {A B : Type}, (A -> B) -> bnf A -> bnf B.

(** The text of NUM, taken apart. *)
Definition digit_value (c : ascii) : Z := code c - 48.
Definition number_of (s : text) : number :=
  let a := sign_len s in
  let s1 := skipn a s in
  let d := span is_digit s1 in
  let s2 := skipn d s1 in
  let f := fraction_len s2 in
  let s3 := skipn f s2 in
  let sign s := match s with c :: _ => if Ascii.eqb c "-" then Some true else if Ascii.eqb c "+" then Some false else None
                | [] => None end in
  NumText (sign s) (map digit_value (firstn d s1))
    (match f with O => None | S n => Some (map digit_value (firstn n (skipn 1 s2))) end)
    (match exponent_len s3 with
     | O => None
     | n => let e := skipn 1 (firstn n s3) in Some (sign e, map digit_value (skipn (sign_len e) e))
     end).

Section Grammar.
Context (strtod : text -> option double) (call : string -> double -> double) (pow : double -> double -> double).

(** What a right hand side derives: [derives g a ts] if it derives the tokens
    [ts], with the value [a]. *)
Fixpoint derives {A : Type} (g : bnf A) : A -> list tok -> Prop :=
  match g in bnf A return A -> list tok -> Prop with
  | Empty => fun _ ts => ts = []
  | Tok k => fun _ ts => ts = [KEY k]
  | Str => fun s ts => ts = [STRING s]
  | Num => fun n ts => exists s, ts = [EX (TNum s)] /\ n = number_of s
  | Expr => fun v ts => exists l vars, ts = map EX l /\ expression strtod call pow symrec_new l = Parsed (v, vars)
  | Seq g h => fun p ts => exists u v, ts = u ++ v /\ derives g (fst p) u /\ derives h (snd p) v
  | Or g h => fun a ts => derives g a ts \/ derives h a ts
  | Many g => fun l ts => exists us, ts = List.concat us /\ Forall2 (derives g) l us
  | Val f g => fun b ts => exists a, b = f a /\ derives g a ts
  end.
End Grammar.

(** ** The rules, src/parse.yy:536-2156 *)

(** KEYWORD ':' ... *)
Definition key {A} (k : string) (g : bnf A) : bnf A :=
  Val (fun p => snd (snd p)) (Seq (Tok k) (Seq (Tok ":") g)).
Definition word {A} (k : string) (a : A) : bnf A := Val (fun _ => a) (Tok k).
Definition none {A} : bnf (option A) := Val (fun _ => None) Empty.
Definition opt {A} (g : bnf A) : bnf (option A) := Or none (Val Some g).
Definition seq {A B C} (f : A -> B -> C) (g : bnf A) (h : bnf B) : bnf C := Val (fun p => f (fst p) (snd p)) (Seq g h).

Local Open Scope string_scope.

(** Where all alternatives of a rule begin with the same KEYWORD ':', it is
    written once. *)
Definition yes_no : bnf bool := Or (word "YES" true) (word "NO" false).

(** latitude_sub and latitude, lines 2060-2094; longitude, 2096-2127. *)
Definition g_latitude : bnf lat_entry :=
  seq (fun x k => LatEntry (fst x) (snd x) k)
    (seq pair Expr (Or (Val (fun _ => no_hemisphere) Empty) (Or (word "N" North) (word "S" South))))
    (Or (Val (fun _ => Centric) Empty) (Or (word "C" Centric) (word "G" Graphic))).
Definition g_longitude : bnf lon_entry :=
  seq LonEntry Expr (Or (Val (fun _ => no_direction) Empty) (Or (word "E" East) (word "W" West))).
(** A latitude and a longitude in either order: sub_observ, sub_solar,
    lat_lon_given, lines 1703-1721 and 1788-1813. *)
Definition g_point (lat lon : string) : bnf point_entry :=
  Or (seq lat_first (key lat g_latitude) (key lon g_longitude))
     (seq lon_first (key lon g_longitude) (key lat g_latitude)).
Definition g_sub_observ := g_point "SUB_OBSERV_LAT" "SUB_OBSERV_LON".
Definition g_sub_solar := g_point "SUB_SOLAR_LAT" "SUB_SOLAR_LON".
(** position_angle, 1723-1754; range, 1433-1440. *)
Definition g_position_angle : bnf angle_entry :=
  key "POSITION_ANGLE" (seq AngleEntry Expr (Or (Val (fun _ => no_turn) Empty) (Or (word "CW" CW) (word "CCW" CCW)))).
Definition g_range : bnf range_entry :=
  key "RANGE" (seq RangeEntry Expr (Or (Val (fun _ => no_unit) Empty) (Or (word "KM" KM) (word "AU" AU)))).
Definition g_km_per_pixel : bnf double := key "KM_PER_PIXEL" Expr.          (* 1756-1768 *)
(** centers, 1770-1813; optical_axis, 1815-1821. *)
Definition g_centers : bnf centers :=
  Or (Or (seq sample_line (key "SAMPLE_CENTER" Expr) (key "LINE_CENTER" Expr))
         (seq line_sample (key "LINE_CENTER" Expr) (key "SAMPLE_CENTER" Expr)))
     (Val at_center (g_point "LAT_AT_CENTER" "LON_AT_CENTER")).
Definition g_optical_axis : bnf (option axis_entry) :=
  opt (Or (seq sample_line_oa (key "SAMPLE_OA" Expr) (key "LINE_OA" Expr))
          (seq line_sample_oa (key "LINE_OA" Expr) (key "SAMPLE_OA" Expr))).

(** grid_intervals, 759-808; grid, 744-757. *)
Definition g_intervals : bnf intervals :=
  let lat := key "LAT_GRID_INTERVAL" Expr in
  let lon := key "LON_GRID_INTERVAL" Expr in
  Or (Val both_intervals (key "GRID_INTERVAL" Expr))
  (Or (Val lat_interval lat)
  (Or (Val lon_interval lon)
  (Or (seq lat_lon_interval lat lon)
      (seq lon_lat_interval lon lat)))).
Definition g_grid : bnf (option (bool * option intervals)) :=
  let yes_or_no := key "GRID" yes_no in
  Or none
  (Or (Val (fun b => Some (b, None)) yes_or_no)
      (seq (fun b i => Some (b, Some i)) yes_or_no g_intervals)).

(** plane_data_range, 1024-1060. *)
Definition g_data_range : bnf data_range :=
  let mi := key "DATA_MIN" Expr in
  let ma := key "DATA_MAX" Expr in
  Or (Val (fun _ => no_range) Empty)
  (Or (Val min_only mi)
  (Or (Val max_only ma)
  (Or (seq min_max mi ma)
      (seq max_min ma mi)))).

(** nibbling, 1180-1293. *)
Definition g_side (k : string) (s : side) : bnf (side * number) := Val (pair s) (key k Num).
Definition g_either (a b : bnf (side * number)) : bnf nibbling :=
  Or (Val (fun x => [x]) a)
  (Or (Val (fun x => [x]) b)
  (Or (seq (fun x y => [x; y]) a b)
      (seq (fun x y => [x; y]) b a))).
Definition g_nibble_samples : bnf nibbling := g_either (g_side "NIBBLE_LEFT" left_side) (g_side "NIBBLE_RIGHT" right_side).
Definition g_nibble_lines : bnf nibbling := g_either (g_side "NIBBLE_TOP" top_side) (g_side "NIBBLE_BOTTOM" bottom_side).
Definition g_nibbling : bnf nibbling :=
  Or (Val (fun _ => []) Empty)
  (Or (Val (fun x => [x]) (g_side "NIBBLE" all_sides))
  (Or g_nibble_samples
  (Or g_nibble_lines
  (Or (seq (@List.app _) g_nibble_samples g_nibble_lines)
      (seq (@List.app _) g_nibble_lines g_nibble_samples))))).

(** user_file_parse, 541-555. *)
Definition g_user : bnf user_entry :=
  seq (fun i r => UserEntry i (fst r) (snd r)) g_intervals (seq pair g_data_range g_nibbling).

(** inversion, 1295-1300; image_geometry, 1442-1475; photo_correct, 1400-1407,
    whose value is not used. *)
Definition g_inversion : bnf (option inversion) :=
  opt (key "INVERT" (Or (word "VERTICAL" vertical) (Or (word "HORIZONTAL" horizontal) (word "BOTH" both_ways)))).
Definition g_scale : bnf scale_entry :=
  Or (Val km_per_pixel g_km_per_pixel)
  (Or (Val arcsec_per_pix (key "ARCSEC_PER_PIX" Expr))
  (Or (seq focal_scale (key "FOCAL_LENGTH" Expr) (key "PIXEL_SCALE" Expr))
      (seq scale_focal (key "PIXEL_SCALE" Expr) (key "FOCAL_LENGTH" Expr)))).
Definition g_photo_correct : bnf unit :=
  Val (fun _ => tt) (opt (key "MINNAERT" (Or (Val (fun _ => tt) Expr) (Or (Tok "AUTO") (Tok "TABLE"))))).

(** image_setup, 1087-1178 and 1302-1313, 1392-1431. *)
Definition g_image : bnf image_entry :=
  Val (fun '(file, (nib, (inv, (int, (sky, (cen, (axis, (flat, (_, (geom, (emi, (term, (obs, (pos, (sol, (ran, sc)))))))))))))))) =>
         ImageEntry file nib inv int sky cen axis flat geom emi term obs pos sol ran sc)
    (Seq (key "IMAGE" Str)
    (Seq g_nibbling
    (Seq g_inversion
    (Seq (opt (key "INTERPOLATE" yes_no))
    (Seq (opt (key "REMOVE_SKY" yes_no))
    (Seq g_centers
    (Seq g_optical_axis
    (Seq (opt (key "FLAT_FIELD" Str))
    (Seq g_photo_correct
    (Seq (opt (key "GEOM_CORRECT" yes_no))
    (Seq (opt (key "EMI_ANG_LIMIT" Expr))
    (Seq (opt (key "TERMINATOR" yes_no))
    (Seq g_sub_observ
    (Seq g_position_angle
    (Seq g_sub_solar
    (Seq g_range
         g_scale)))))))))))))))).

(** lat_type, 1903-1913. *)
Definition g_lat_type : bnf (option lat_kind) :=
  Or none
  (Or (key "LATITUDE_TYPE" (Or (word "CENTRIC" (Some Centric)) (word "GRAPHIC" (Some Graphic))))
  (Or (word "CENTRIC" (Some Centric))
      (word "GRAPHIC" (Some Graphic)))).

(** plane_type, 1062-1085 and 1315-1390. *)
Definition g_plane_type : bnf plane_type :=
  Or (seq T_image g_image (Many g_image))
  (Or (key "MU" (Or (seq (fun o r => T_mu o r None) g_sub_observ g_range)
                    (seq (fun o r => T_mu o (fst r) (Some (snd r))) g_sub_observ (Seq g_range g_sub_solar))))
  (Or (key "MU0" (Or (Val (T_mu0 None) g_sub_solar)
                     (seq (fun o r => T_mu0 (Some (o, fst r)) (snd r)) g_sub_observ (Seq g_range g_sub_solar))))
  (Or (key "PHASE" (seq (fun o r => T_phase o (fst r) (snd r)) g_sub_observ (Seq g_range g_sub_solar)))
  (Or (key "LATITUDE" (Val T_latitude g_lat_type))
      (word "LONGITUDE" T_longitude))))).
(** plane and plane_setup, 951-1022. *)
Definition g_plane : bnf plane_entry :=
  seq (fun n r => PlaneEntry n (fst r) (snd r)) (key "PLANE" (opt Num)) (Seq g_data_range g_plane_type).

(** options, 1983-2004; mercator, 1599-1610; ortho, 1613-1699; p_stereo,
    1856-1874, 2051-2058; simple_c, 1877-1963. *)
Definition g_options : bnf (option average) :=
  key "OPTIONS" (opt (key "AVERAGING"
    (Or (word "UNWEIGHTED" AVG_UNWEIGHTED) (Or (word "WEIGHTED" AVG_WEIGHTED) (word "NONE" AVG_NONE))))).
Definition g_mercator : bnf projection_entry :=
  Val T_mercator (opt g_options).
Definition g_ortho_optsub : bnf ortho_options :=
  Or (Val (fun _ => OrthoOptions None None None None) Empty)
  (Or (Val (fun o => OrthoOptions (Some o) None None None) g_sub_observ)
  (Or (Val (fun p => OrthoOptions None (Some p) None None) g_position_angle)
  (Or (Val (fun k => OrthoOptions None None (Some k) None) g_km_per_pixel)
  (Or (Val (fun c => OrthoOptions None None None (Some c)) g_centers)
  (Or (seq (fun o p => OrthoOptions (Some o) (Some p) None None) g_sub_observ g_position_angle)
  (Or (seq (fun o p => OrthoOptions (Some o) (Some (fst p)) (Some (snd p)) None) g_sub_observ
         (Seq g_position_angle g_km_per_pixel))
      (seq (fun o p => OrthoOptions (Some o) (Some (fst p)) (Some (fst (snd p))) (Some (snd (snd p)))) g_sub_observ
         (Seq g_position_angle (Seq g_km_per_pixel g_centers))))))))).
Definition g_ortho : bnf projection_entry :=
  Val T_ortho (opt (Seq g_options g_ortho_optsub)).
Definition g_pole : bnf bool := key "POLE" (Or (word "N" true) (word "S" false)).
Definition g_p_stereo : bnf projection_entry :=
  Val T_p_stereo (opt (seq (fun o p => (o, fst p, snd p)) g_options (Seq g_pole (opt (key "MAX_LAT" g_latitude))))).
Definition g_lat_range : bnf lat_range :=
  Or (seq lo_hi_lat (key "LO_LAT" g_latitude) (key "HI_LAT" g_latitude))
     (seq hi_lo_lat (key "HI_LAT" g_latitude) (key "LO_LAT" g_latitude)).
Definition g_lon_range : bnf lon_range :=
  Or (seq lo_hi_lon (key "LO_LON" g_longitude) (key "HI_LON" g_longitude))
     (seq hi_lo_lon (key "HI_LON" g_longitude) (key "LO_LON" g_longitude)).
Definition g_latlonrange : bnf (option lat_range * option lon_range) :=
  Or (Val (fun _ => (None, None)) Empty)
  (Or (Val (fun a => (Some a, None)) g_lat_range)
  (Or (Val (fun o => (None, Some o)) g_lon_range)
  (Or (seq (fun a o => (Some a, Some o)) g_lat_range g_lon_range)
      (seq (fun o a => (Some a, Some o)) g_lon_range g_lat_range)))).
Definition g_simple_c : bnf projection_entry :=
  Val T_simple_c (opt (seq (fun o p => (o, fst p, fst (snd p), snd (snd p))) g_options (Seq g_lat_type g_latlonrange))).
(** projection_type, 810-826. *)
Definition g_projection : bnf projection_entry :=
  key "TYPE" (Or (seq (fun _ p => p) (Tok "MERCATOR") g_mercator)
             (Or (seq (fun _ p => p) (Tok "ORTHO") g_ortho)
             (Or (seq (fun _ p => p) (Tok "P_STEREO") g_p_stereo)
                 (seq (fun _ p => p) (Tok "SIMPLE_C") g_simple_c)))).

(** body, radii, rotation, 877-949. *)
Definition g_radii : bnf (radii_entry ar_double) :=
  let eq := key "EQ_RAD" Expr in
  let pol := key "POL_RAD" Expr in
  let flat := key "FLATTENING" Expr in
  let given_radii (a b : double) := given_radii (A := ar_double) a b in
  let given_eq (a b : double) := given_eq (A := ar_double) a b in
  let given_pol (a b : double) := given_pol (A := ar_double) a b in
  Or (seq given_radii eq pol)
  (Or (seq (fun b a => given_radii a b) pol eq)
  (Or (seq given_eq eq flat)
  (Or (seq (fun f a => given_eq a f) flat eq)
  (Or (seq given_pol pol flat)
      (seq (fun f b => given_pol b f) flat pol))))).
Definition g_body : bnf (string * (radii_entry ar_double * bool)) :=
  Seq (key "BODY" Str) (Seq g_radii (key "ROTATION" (Or (word "PROGRADE" true) (word "RETROGRADE" false)))).

(** data_info, 680-742. *)
Definition g_data_type : bnf (option Z) :=
  opt (key "DATA_TYPE"
    (Or (word "BYTE" 8) (Or (word "SHORT" 16) (Or (word "LONG" 32) (Or (word "LONGLONG" 64)
    (Or (word "FLOAT" (-32)) (word "DOUBLE" (-64)))))))).

(** map_setup, 562-678 and 828-875. *)
Definition g_map : bnf map_entry :=
  Val (fun '(file, (author, (origin, (comm, (xcomm, ((name, (radii, prograde)), (off, (sc, (type, (blank, (grid,
              (proj, (planes, (samples, (lines, (p, ps)))))))))))))))) =>
         MapEntry file author origin comm xcomm name radii prograde off sc type blank grid proj planes samples lines p ps)
    (Seq (key "MAP" Str)
    (Seq (opt (key "AUTHOR" Str))
    (Seq (opt (key "ORIGIN" Str))
    (Seq (Many (key "COMMENT" Str))
    (Seq (Many (key "XCOMMENT" Str))
    (Seq g_body
    (Seq (opt (key "DATA_OFFSET" Expr))
    (Seq (opt (key "DATA_SCALE" Expr))
    (Seq g_data_type
    (Seq (opt (key "DATA_BLANK" Num))
    (Seq g_grid
    (Seq g_projection
    (Seq (opt (key "PLANES" Num))
    (Seq (key "SAMPLES" Num)
    (Seq (key "LINES" Num)
    (Seq g_plane
         (Many g_plane))))))))))))))))).

(** map, 536-560. *)
Definition g_file : bnf input_text :=
  Or (seq map_text g_map (Many g_map)) (Val user_text g_user).

(** The file [s] is read as [t]. *)
Definition reads_as (strtod : text -> option double) (call : string -> double -> double) (pow : double -> double -> double)
    (s : text) (t : input_text) : Prop := derives strtod call pow g_file t (file_tokens s).
