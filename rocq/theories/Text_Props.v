(** Property theorems for the texts of input files (C96, C97, C98, C99).  The
    value of a number (std::strtod) and the mathematical functions are
    arbitrary. *)
From Coq Require Import List ZArith Bool Ascii String.
From Flocq Require Import BinarySingleNaN.
From Verif Require Import Base Flt Num Extrema_Model Entry_Model Expr_Model Expr_Spec Parse_Model Text_Model Text_Spec TextEntries_Spec
  Text_Proofs TextEntries_Proofs TextCases_Proofs.
Import ListNotations.

Section Props.
Context (strtod : text -> option double) (call : string -> double -> double) (pow : double -> double -> double).
Local Notation reads_as := (reads_as strtod call pow).
Local Notation file_written := (file_written strtod call pow).

(** C96: by the rules of the grammar, a text says at most one thing. *)
Theorem C96_one_meaning : forall s t t', reads_as s t -> reads_as s t' -> t = t'.
Proof. exact (reads_once strtod call pow). Qed.
Theorem C96_several_files : forall ss ts ts', Forall2 reads_as ss ts -> Forall2 reads_as ss ts' -> ts = ts'.
Proof. exact (all_once strtod call pow). Qed.

(** C97: blanks, line ends, comments, case and synonyms make no difference. *)
Theorem C97_layout : forall ts s1 s2 t, laid ts s1 -> laid ts s2 -> (reads_as s1 t <-> reads_as s2 t).
Proof. exact (reads_laid strtod call pow). Qed.

(** C98: a file is read as the entries it gives under their keywords. *)
Theorem C98_entries : forall ts s t, laid ts s -> (reads_as s t <-> file_written t ts).
Proof. exact (laid_written strtod call pow). Qed.

(** C99: a file of two files holds the maps of both. *)
Theorem C99_joined : forall ts1 s1 ts2 s2 m l m' l', laid ts1 s1 -> laid ts2 s2 ->
  reads_as s1 (map_text m l) -> reads_as s2 (map_text m' l') ->
  reads_as (s1 ++ newline :: s2) (map_text m (l ++ m' :: l')).
Proof. exact (reads_joined strtod call pow). Qed.
End Props.
Print Assumptions C96_one_meaning.
Print Assumptions C96_several_files.
Print Assumptions C97_layout.
Print Assumptions C98_entries.
Print Assumptions C99_joined.

(** C97: a blank is needed between MAP: and the name of the file; a carriage
    return before the end of a line is not accepted; and a comment of one word
    after MAP: is taken for the name. *)
Theorem C97_refuted :
  (exists s,
     (exists t, reads_as any_number (fun _ x => x) (fun x _ => x) (chars "MAP: " ++ s) t) /\
     forall t, ~ reads_as any_number (fun _ x => x) (fun x _ => x) (chars "MAP:" ++ s) t) /\
  (exists a b,
     (exists t, reads_as any_number (fun _ x => x) (fun x _ => x) (a ++ [newline] ++ b) t) /\
     forall t, ~ reads_as any_number (fun _ x => x) (fun x _ => x) (a ++ [ascii_of_nat 13; newline] ++ b) t) /\
  (exists a b,
     (exists t, reads_as any_number (fun _ x => x) (fun x _ => x) (a ++ [newline] ++ b) t) /\
     forall t, ~ reads_as any_number (fun _ x => x) (fun x _ => x) (a ++ chars " #file" ++ [newline] ++ b) t).
Proof. exact (conj colon_needs_blank (conj no_carriage_returns name_after_hash)). Qed.
Print Assumptions C97_refuted.

Section Cases.
Context (strtod : text -> option double) (call : string -> double -> double) (pow : double -> double -> double).
Context (v : double) (V : strtod (chars "15") = Some v).
Local Notation reads_as := (reads_as strtod call pow).

(** C98 *)
Example C98_case : reads_as (chars "GRID_INTERVAL: 15") (user_text (UserEntry (both_intervals v) no_range [])).
Proof. exact (interval_read strtod call pow v V). Qed.
(** C96 *)
Example C96_case t : reads_as (chars "GRID_INTERVAL: 15") t -> t = user_text (UserEntry (both_intervals v) no_range []).
Proof. intro R. exact (C96_one_meaning strtod call pow _ _ _ R C98_case). Qed.
(** C97 *)
Example C97_case : reads_as (chars "# intervals

  Grid_Interval
	:15	# degrees
") (user_text (UserEntry (both_intervals v) no_range [])).
Proof. exact (proj1 (C97_layout strtod call pow _ _ _ _ plain_laid other_laid) C98_case). Qed.
End Cases.

(** C99 *)
Example C99_case : exists m,
  let s := chars "MAP: m
BODY: b
EQ_RAD: 7
POL_RAD: 6
ROTATION: PROGRADE
TYPE: ORTHO
SAMPLES: 5
LINES: 4
PLANE: 1
LONGITUDE" in
  reads_as any_number (fun _ x => x) (fun x _ => x) s (map_text m []) /\
  reads_as any_number (fun _ x => x) (fun x _ => x) (s ++ newline :: s) (map_text m [m]).
Proof. exact small_twice. Qed.
