(** Specification of the layout of input files: how a sequence of tokens may be
    written as a text. *)
From Coq Require Import List ZArith Bool Ascii String.
From Flocq Require Import BinarySingleNaN.
From Verif Require Import Base Flt Entry_Model Expr_Model Expr_Spec Parse_Model Text_Model.
Import ListNotations.

(** Keywords by what follows their colon: a name, the rest of the line, further
    keywords, a pole, or numbers up to the end of the line. *)
Definition name_keys : list string := ["MAP"; "BODY"; "IMAGE"; "FLAT_FIELD"]%string.
Definition line_keys : list string := ["AUTHOR"; "ORIGIN"; "COMMENT"; "XCOMMENT"]%string.
Definition choice_keys : list string :=
  ["DATA_TYPE"; "GRID"; "TYPE"; "AVERAGING"; "OPTIONS"; "ROTATION"; "MU"; "MU0"; "PHASE"; "LATITUDE_TYPE"; "LATITUDE";
   "INTERPOLATE"; "REMOVE_SKY"; "INVERT"; "GEOM_CORRECT"; "TERMINATOR"]%string.
Definition number_keys : list string :=
  ["DATA_OFFSET"; "DATA_SCALE"; "DATA_BLANK"; "GRID_INTERVAL"; "LAT_GRID_INTERVAL"; "LON_GRID_INTERVAL"; "SAMPLES"; "LINES";
   "PLANES"; "FLATTENING"; "EQ_RAD"; "POL_RAD"; "PLANE"; "DATA_MIN"; "DATA_MAX"; "LO_LAT"; "HI_LAT"; "LO_LON"; "HI_LON";
   "MAX_LAT"; "NIBBLE"; "NIBBLE_LEFT"; "NIBBLE_RIGHT"; "NIBBLE_TOP"; "NIBBLE_BOTTOM"; "SAMPLE_CENTER"; "LINE_CENTER";
   "LAT_AT_CENTER"; "LON_AT_CENTER"; "SAMPLE_OA"; "LINE_OA"; "MINNAERT"; "EMI_ANG_LIMIT"; "SUB_OBSERV_LAT";
   "SUB_OBSERV_LON"; "POSITION_ANGLE"; "SUB_SOLAR_LAT"; "SUB_SOLAR_LON"; "RANGE"; "FOCAL_LENGTH"; "PIXEL_SCALE";
   "ARCSEC_PER_PIX"; "KM_PER_PIXEL"]%string.
(** Keywords without a colon. *)
Definition choices : list string :=
  ["MERCATOR"; "ORTHO"; "P_STEREO"; "SIMPLE_C"; "NONE"; "WEIGHTED"; "UNWEIGHTED"; "PROGRADE"; "RETROGRADE"; "CENTRIC";
   "GRAPHIC"; "LONGITUDE"; "VERTICAL"; "HORIZONTAL"; "BOTH"; "BYTE"; "SHORT"; "LONG"; "LONGLONG"; "FLOAT"; "DOUBLE";
   "YES"; "NO"]%string.
Definition synonyms : list (string * string) :=
  [("TYPE", "PROJECTION"); ("CENTRIC", "CENTRIC_LAT"); ("GRAPHIC", "GRAPHIC_LAT"); ("YES", "Y"); ("NO", "N")]%string.

(** A word in capital and small letters, and a keyword or a synonym so. *)
Definition in_any_case (k : string) (w : text) : Prop := map upper w = chars k.
Definition spelling (k : string) (w : text) : Prop := exists p, (p = k \/ In (k, p) synonyms) /\ in_any_case p w.

(** What may not follow a word immediately. *)
Definition word_char (c : ascii) : bool := is_alpha c || is_digit c || Ascii.eqb c "_".
Definition word_ends (s : text) : Prop := match s with [] => True | c :: _ => word_char c = false end.

Definition no_newline (l : text) : Prop := Forall (fun c => is_newline c = false) l.
(** Blanks and ends of lines, also with comments. *)
Definition white (g : text) : Prop := Forall (fun c => is_blank c = true \/ is_newline c = true) g.
Inductive gap : text -> Prop :=
| gap_end : gap []
| gap_white c g : is_blank c = true \/ is_newline c = true -> gap g -> gap (c :: g)
| gap_comment l g : no_newline l -> gap g -> gap ("#"%char :: l ++ newline :: g).
Definition comment (q : text) : Prop := q = [] \/ exists l, q = "#"%char :: l /\ no_newline l.

(** ** Numbers *)

Inductive put : tok -> text -> Prop :=
| put_token t w : written t w -> put (EX t) w
| put_suffix k w : In k ["C"; "G"; "N"; "S"; "E"; "W"; "AU"; "KM"; "CW"; "CCW"]%string -> in_any_case k w -> put (KEY k) w.

(** [s] begins like the rest of a number: with a digit, a point or an exponent. *)
Definition continues_number (s : text) : Prop :=
  match s with
  | [] => False
  | c :: r =>
      is_digit c = true \/ c = "."%char \/
      (c = "E" \/ c = "e")%char /\ match r with
        | d :: r => is_digit d = true \/ (d = "-" \/ d = "+")%char /\ match r with d :: _ => is_digit d = true | [] => False end
        | [] => False
        end
  end.
(** [s] may follow the token without a blank. *)
Definition apart (t : tok) (s : text) : Prop :=
  match t with
  | EX (TNum _) | EX (TOp OpAdd) | EX (TOp OpSub) => ~ continues_number s
  | EX (TFun _) => word_ends s
  | KEY _ => word_ends s /\ match s with c :: _ => c <> "-" /\ c <> "+" | [] => True end%char
  | _ => True
  end.
Inductive on_line : list tok -> text -> Prop :=
| on_end : on_line [] []
| on_blank c ts s : is_blank c = true -> on_line ts s -> on_line ts (c :: s)
| on_token t w ts s : put t w -> apart t s -> on_line ts s -> on_line (t :: ts) (w ++ s).

(** ** Files *)

(** [laid ts s]: the text [s] is a layout of the tokens [ts]. *)
Inductive laid : list tok -> text -> Prop :=
| laid_end g q : gap g -> comment q -> laid [] (g ++ q)
| laid_choice k g w ts s : gap g -> In k choices -> spelling k w -> word_ends s -> laid ts s ->
    laid (KEY k :: ts) (g ++ w ++ s)
| laid_choices k g w g' ts s : gap g -> In k choice_keys -> spelling k w -> gap g' -> laid ts s ->
    laid (KEY k :: KEY ":" :: ts) (g ++ w ++ g' ++ ":"%char :: s)
| laid_numbers k g w g' es e q ts s : gap g -> In k number_keys -> spelling k w -> gap g' -> on_line es e -> comment q ->
    laid ts s -> laid (KEY k :: KEY ":" :: es ++ ts) (g ++ w ++ g' ++ ":"%char :: e ++ q ++ newline :: s)
| laid_last_numbers k g w g' es e q : gap g -> In k number_keys -> spelling k w -> gap g' -> on_line es e -> comment q ->
    laid (KEY k :: KEY ":" :: es) (g ++ w ++ g' ++ ":"%char :: e ++ q)
| laid_minnaert k g w g' b v ts s : gap g -> spelling "MINNAERT" w -> gap g' -> Forall (fun c => is_blank c = true) b ->
    In k ["AUTO"; "TABLE"]%string -> in_any_case k v -> word_ends s -> laid ts s ->
    laid (KEY "MINNAERT" :: KEY ":" :: KEY k :: ts) (g ++ w ++ g' ++ ":"%char :: b ++ v ++ s)
| laid_name k g w g' g'' n ts s : gap g -> In k name_keys -> spelling k w -> white g' -> white g'' -> g'' <> [] ->
    Forall (fun c => is_graph c = true) n -> n <> [] -> n <> [":"%char] -> hd " "%char n <> "#"%char ->
    match s with [] => True | c :: _ => is_graph c = false end -> laid ts s ->
    laid (KEY k :: KEY ":" :: STRING (string_of_list_ascii n) :: ts) (g ++ w ++ g' ++ ":"%char :: g'' ++ n ++ s)
| laid_line k g w g' l ts s : gap g -> In k line_keys -> spelling k w -> gap g' -> no_newline l -> laid ts s ->
    laid (KEY k :: KEY ":" :: STRING (string_of_list_ascii l) :: ts) (g ++ w ++ g' ++ ":"%char :: l ++ newline :: s)
| laid_pole k g w g' g'' v ts s : gap g -> spelling "POLE" w -> gap g' -> gap g'' ->
    (k = "N" /\ (in_any_case "N" v \/ in_any_case "NORTH" v) \/ k = "S" /\ (in_any_case "S" v \/ in_any_case "SOUTH" v))%string ->
    word_ends s -> laid ts s ->
    laid (KEY "POLE" :: KEY ":" :: KEY k :: ts) (g ++ w ++ g' ++ ":"%char :: g'' ++ v ++ s).
