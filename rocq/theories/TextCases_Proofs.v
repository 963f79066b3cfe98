(** Texts of input files, with and without layouts. *)
From Coq Require Import List ZArith Bool Ascii String.
From Flocq Require Import BinarySingleNaN.
From Verif Require Import Base Flt Num Extrema_Model Entry_Model Expr_Model Expr_Spec Parse_Model Text_Model Text_Spec TextGrammar_Proofs Text_Proofs
  TextEntries_Spec TextEntries_Proofs.
Import ListNotations.

Section Texts.
Context (strtod : text -> option double) (call : string -> double -> double) (pow : double -> double -> double).
Local Notation reads_as := (reads_as strtod call pow).
Local Notation file_written := (file_written strtod call pow).

Lemma reads_once s t t' : reads_as s t -> reads_as s t' -> t = t'.
Proof. apply file_unique. Qed.
Lemma reads_decided s : {t | reads_as s t} + {forall t, ~ reads_as s t}.
Proof.
  destruct (parse_file strtod call pow (file_tokens s)) as [t|] eqn:E.
  - left. exists t. now apply parse_file_iff.
  - right. intros t D. apply parse_file_iff in D. congruence.
Qed.
Lemma reads_laid ts s1 s2 t : laid ts s1 -> laid ts s2 -> reads_as s1 t <-> reads_as s2 t.
Proof. intros A B. unfold Text_Model.reads_as. now rewrite (laid_tokens _ _ A), (laid_tokens _ _ B). Qed.
Lemma laid_written ts s t : laid ts s -> reads_as s t <-> file_written t ts.
Proof. intro L. rewrite reads_written. now rewrite (laid_tokens _ _ L). Qed.
Lemma each_join A (f : A -> doc) a b u v : each f a u -> each f b v -> each f (a ++ b) (u ++ v).
Proof. intros U V. apply each_app. exists u, v. auto. Qed.
Lemma reads_joined ts1 s1 ts2 s2 m l m' l' : laid ts1 s1 -> laid ts2 s2 ->
  reads_as s1 (map_text m l) -> reads_as s2 (map_text m' l') -> reads_as (s1 ++ newline :: s2) (map_text m (l ++ m' :: l')).
Proof.
  intros A B R1 R2. apply (laid_written _ _ _ A) in R1. apply (laid_written _ _ _ B) in R2.
  apply (laid_written _ _ _ (laid_join _ _ _ _ A B)). exact (each_join _ _ (m :: l) (m' :: l') _ _ R1 R2).
Qed.

(** Several files. *)
Context (fmod : double -> double -> double) (degree : double) (centric : body -> double -> double) (au : double).
Context (construct : projection -> option exn) (opens : string -> option exn)
  (refuses : body -> list vcall -> vcall -> option exn).
Local Notation run := (run_parser fmod degree centric au construct opens refuses).
Lemma all_once ss ts ts' : Forall2 reads_as ss ts -> Forall2 reads_as ss ts' -> ts = ts'.
Proof.
  intro R. revert ts'. induction R as [|s t ss ts R _ IH]; intros ts' R'; inversion R' as [|? t' ? us R1 R2]; subst; [reflexivity|].
  f_equal; [exact (reads_once _ _ _ R R1)|exact (IH _ R2)].
Qed.
Lemma all_laid tss ss1 ss2 ts : Forall2 laid tss ss1 -> Forall2 laid tss ss2 -> Forall2 reads_as ss1 ts -> Forall2 reads_as ss2 ts.
Proof.
  intro A. revert ss2 ts. induction A as [|x s tss ss1 A _ IH]; intros ss2 ts B R; inversion B as [|? s2 ? ss2' B1 B2]; subst;
    inversion R as [|? t ? ts' R1 R2]; subst; constructor; [now apply (reads_laid _ _ _ _ A B1)|now apply (IH _ _ B2)].
Qed.
End Texts.

(** ** Layouts *)
Lemma on_number d : d <> [] -> Forall (fun c => is_digit c = true) d -> on_line [EX (TNum d)] (" "%char :: d).
Proof.
  intros N D. apply on_blank; [reflexivity|]. rewrite <- (app_nil_r d) at 2. apply on_token; [|intros []|apply on_end].
  apply put_token. pose proof (w_num [] d [] [] (or_introl eq_refl) N D (or_introl eq_refl) (or_introl eq_refl)) as W.
  cbn [app] in W. rewrite app_nil_r in W. exact W.
Qed.
Lemma usual k : map upper (chars k) = chars k -> spelling k (chars k).
Proof. intro E. exists k. split; [now left|exact E]. Qed.
Lemma gap_newline : gap [newline].
Proof. apply gap_white; [now right|apply gap_end]. Qed.
Lemma gap_blank : gap [" "%char].
Proof. apply gap_white; [now left|apply gap_end]. Qed.
Ltac listed := cbn; tauto.

Definition colon_token : tok := KEY ":".
Local Open Scope string_scope.
Local Open Scope list_scope.
(** A map with the least there can be. *)
Definition small_text : text := chars "MAP: m
BODY: b
EQ_RAD: 7
POL_RAD: 6
ROTATION: PROGRADE
TYPE: ORTHO
SAMPLES: 5
LINES: 4
PLANE: 1
LONGITUDE".
Definition small_tokens : list tok :=
  [KEY "MAP"; colon_token; STRING "m"; KEY "BODY"; colon_token; STRING "b"; KEY "EQ_RAD"; colon_token; EX (TNum (chars "7"));
   KEY "POL_RAD"; colon_token; EX (TNum (chars "6")); KEY "ROTATION"; colon_token; KEY "PROGRADE"; KEY "TYPE"; colon_token; KEY "ORTHO";
   KEY "SAMPLES"; colon_token; EX (TNum (chars "5")); KEY "LINES"; colon_token; EX (TNum (chars "4"));
   KEY "PLANE"; colon_token; EX (TNum (chars "1")); KEY "LONGITUDE"].
Lemma lay_number k g c ts s : gap g -> In k number_keys -> map upper (chars k) = chars k -> is_digit c = true -> laid ts s ->
  laid (KEY k :: KEY ":" :: EX (TNum [c]) :: ts) (g ++ chars k ++ ":"%char :: " "%char :: c :: newline :: s).
Proof.
  intros G K U D L.
  exact (laid_numbers k g (chars k) [] [EX (TNum [c])] [" "%char; c] [] ts s G K (usual k U) gap_end
    (on_number [c] ltac:(discriminate) (Forall_cons _ D (Forall_nil _))) (or_introl eq_refl) L).
Qed.
Lemma lay_name k g c ts s : gap g -> In k name_keys -> map upper (chars k) = chars k -> is_graph c = true -> c <> ":"%char -> c <> "#"%char ->
  laid ts s -> match s with [] => True | c :: _ => is_graph c = false end ->
  laid (KEY k :: KEY ":" :: STRING (String c "") :: ts) (g ++ chars k ++ ":"%char :: " "%char :: c :: s).
Proof.
  intros G K U D N H L E.
  apply (laid_name k g (chars k) [] [" "%char] [c] ts s G K (usual k U)); try assumption.
  - apply Forall_nil.
  - apply Forall_cons; [now left|apply Forall_nil].
  - discriminate.
  - apply Forall_cons; [exact D|apply Forall_nil].
  - discriminate.
  - congruence.
Qed.
Lemma lay_choice k g ts s : laid ts s -> gap g -> In k choices -> map upper (chars k) = chars k -> word_ends s ->
  laid (KEY k :: ts) (g ++ chars k ++ s).
Proof. intros L G K U E. exact (laid_choice k g (chars k) ts s G K (usual k U) E L). Qed.
Lemma small_laid : laid small_tokens small_text.
Proof.
  assert (L0 : laid [] []) by exact (laid_end [] [] gap_end (or_introl eq_refl)).
  assert (L1 := laid_choice "LONGITUDE" [] (chars "LONGITUDE") [] [] gap_end ltac:(listed) (usual "LONGITUDE" eq_refl) I L0).
  assert (L2 := lay_number "PLANE" [] "1"%char _ _ gap_end ltac:(listed) eq_refl eq_refl L1).
  assert (L3 := lay_number "LINES" [] "4"%char _ _ gap_end ltac:(listed) eq_refl eq_refl L2).
  assert (L4 := lay_number "SAMPLES" [newline] "5"%char _ _ gap_newline ltac:(listed) eq_refl eq_refl L3).
  assert (L5 := lay_choice "ORTHO" [" "%char] _ _ L4 gap_blank ltac:(listed) eq_refl eq_refl).
  assert (L6 := laid_choices "TYPE" [newline] (chars "TYPE") [] _ _ gap_newline ltac:(listed) (usual "TYPE" eq_refl) gap_end L5).
  assert (L7 := lay_choice "PROGRADE" [" "%char] _ _ L6 gap_blank ltac:(listed) eq_refl eq_refl).
  assert (L8 := laid_choices "ROTATION" [] (chars "ROTATION") [] _ _ gap_end ltac:(listed) (usual "ROTATION" eq_refl) gap_end L7).
  assert (L9 := lay_number "POL_RAD" [] "6"%char _ _ gap_end ltac:(listed) eq_refl eq_refl L8).
  assert (L10 := lay_number "EQ_RAD" [newline] "7"%char _ _ gap_newline ltac:(listed) eq_refl eq_refl L9).
  assert (L11 := lay_name "BODY" [newline] "b"%char _ _ gap_newline ltac:(listed) eq_refl eq_refl ltac:(discriminate) ltac:(discriminate) L10 eq_refl).
  assert (L12 := lay_name "MAP" [] "m"%char _ _ gap_end ltac:(listed) eq_refl eq_refl ltac:(discriminate) ltac:(discriminate) L11 eq_refl).
  exact L12.
Qed.

(** The same entry in two layouts. *)
Definition plain_layout : text := chars "GRID_INTERVAL: 15".
Definition other_layout : text := chars "# intervals

  Grid_Interval
	:15	# degrees
".
Definition interval_tokens : list tok := [KEY "GRID_INTERVAL"; colon_token; EX (TNum (chars "15"))].
Lemma plain_laid : laid interval_tokens plain_layout.
Proof.
  exact (laid_last_numbers "GRID_INTERVAL" [] (chars "GRID_INTERVAL") [] [EX (TNum (chars "15"))] (chars " 15") [] gap_end ltac:(listed)
    (usual "GRID_INTERVAL" eq_refl) gap_end (on_number (chars "15") ltac:(discriminate) ltac:(repeat constructor)) (or_introl eq_refl)).
Qed.
Lemma other_laid : laid interval_tokens other_layout.
Proof.
  assert (E : laid [] []) by exact (laid_end [] [] gap_end (or_introl eq_refl)).
  refine (laid_numbers "GRID_INTERVAL" (chars "# intervals" ++ newline :: newline :: chars "  ")%list (chars "Grid_Interval")
    [newline; ascii_of_nat 9] [EX (TNum (chars "15"))] (chars "15" ++ [ascii_of_nat 9])%list (chars "# degrees") [] [] _ _ _ _ _ _ E).
  - apply (gap_comment (chars " intervals") (newline :: chars "  ")); [repeat constructor|].
    apply gap_white; [now right|]. apply gap_white; [now left|]. apply gap_white; [now left|apply gap_end].
  - listed.
  - exists "GRID_INTERVAL". split; [now left|reflexivity].
  - apply gap_white; [now right|]. apply gap_white; [now left|apply gap_end].
  - apply on_token; [|intros [H|[H|[[H|H] _]]]; discriminate H|apply on_blank; [reflexivity|apply on_end]].
    apply put_token. apply (w_num [] (chars "15") [] []); [now left|discriminate|repeat constructor|now left|now left].
  - right. exists (chars " degrees"). split; [reflexivity|repeat constructor].
Qed.

(** ** What is no layout *)
Definition any_number (_ : text) : option double := Some (double_of_Z 1).
Definition read (s : text) : option input_text := parse_file any_number (fun _ x => x) (fun x _ => x) (file_tokens s).
Definition is_read (s : text) : bool := match read s with Some _ => true | None => false end.
Lemma read_some s : is_read s = true -> exists t, reads_as any_number (fun _ x => x) (fun x _ => x) s t.
Proof. unfold is_read, read. destruct parse_file as [t|] eqn:E; [|discriminate]. intros _. exists t. now apply parse_file_iff. Qed.
Lemma read_none s : is_read s = false -> forall t, ~ reads_as any_number (fun _ x => x) (fun x _ => x) s t.
Proof. unfold is_read, read. destruct parse_file as [t|] eqn:E; [discriminate|]. intros _ t D. apply parse_file_iff in D. congruence. Qed.
Definition small_rest : text := skipn 5 small_text.

Lemma colon_needs_blank : exists s, 
  (exists t, reads_as any_number (fun _ x => x) (fun x _ => x) (chars "MAP: " ++ s) t) /\
  forall t, ~ reads_as any_number (fun _ x => x) (fun x _ => x) (chars "MAP:" ++ s) t.
Proof.
  exists small_rest. split; [apply read_some|apply read_none]; vm_compute; reflexivity.
Qed.
Lemma no_carriage_returns : exists a b,
  (exists t, reads_as any_number (fun _ x => x) (fun x _ => x) (a ++ [newline] ++ b) t) /\
  forall t, ~ reads_as any_number (fun _ x => x) (fun x _ => x) (a ++ [ascii_of_nat 13; newline] ++ b) t.
Proof.
  exists (firstn 6 small_text), (skipn 7 small_text). split; [apply read_some|apply read_none]; vm_compute; reflexivity.
Qed.
Lemma name_after_hash : exists a b,
  (exists t, reads_as any_number (fun _ x => x) (fun x _ => x) (a ++ [newline] ++ b) t) /\
  forall t, ~ reads_as any_number (fun _ x => x) (fun x _ => x) (a ++ chars " #file" ++ [newline] ++ b) t.
Proof.
  exists (chars "MAP:"), (skipn 5 small_text). split; [apply read_some|apply read_none]; vm_compute; reflexivity.
Qed.
Lemma interval_read strtod call pow v : strtod (chars "15") = Some v ->
  reads_as strtod call pow plain_layout (user_text (UserEntry (both_intervals v) no_range [])).
Proof.
  intro V. apply (laid_written strtod call pow _ _ _ plain_laid). cbn [file_written ue_intervals ue_range ue_nibbling grid_intervals limits].
  exists interval_tokens, []. split; [reflexivity|]. split; [|exists [], []; repeat split].
  exists [KEY "GRID_INTERVAL"], [colon_token; EX (TNum (chars "15"))]. split; [reflexivity|]. split; [reflexivity|].
  exists [colon_token], [EX (TNum (chars "15"))]. split; [reflexivity|]. split; [reflexivity|].
  exists [TNum (chars "15")], false, (ENum (chars "15")), symrec_new. split; [reflexivity|]. split.
  - apply s_sum1, s_product1, s_factor1, s_power1, s_num.
  - now apply v_num.
Qed.
Lemma small_twice : exists m,
  reads_as any_number (fun _ x => x) (fun x _ => x) small_text (map_text m []) /\
  reads_as any_number (fun _ x => x) (fun x _ => x) (small_text ++ newline :: small_text) (map_text m [m]).
Proof.
  assert (G : match read small_text with Some (map_text _ []) => true | _ => false end = true) by (vm_compute; reflexivity).
  destruct (read small_text) as [[u|m [|x l]]|] eqn:E; try discriminate G. exists m.
  assert (R : reads_as any_number (fun _ x => x) (fun x _ => x) small_text (map_text m [])) by now apply parse_file_iff.
  split; [exact R|]. exact (reads_joined _ _ _ _ _ _ _ _ _ _ _ small_laid small_laid R R).
Qed.
