(** C70, C71: expressions and symbols. *)
From Coq Require Import List ZArith Bool Ascii String.
From Flocq Require Import BinarySingleNaN.
From Verif Require Import Base Flt Entry_Model Expr_Model Expr_Spec Expr_Proofs.
Import ListNotations.
Open Scope Z_scope.

(** C70: an expression has a value exactly if its tokens are a sentence of the
    usual grammar and the sentence has that value. *)
Theorem C70_meaning : forall strtod call pow m ts v m',
  expression strtod call pow m ts = Parsed (v, m') <->
  exists b e, sentence b Sum e ts /\ value strtod call pow m e v m'.
Proof. exact expression_meaning. Qed.
Print Assumptions C70_meaning.

(** Everything else is an error. *)
Theorem C70_no_value : forall strtod call pow m ts,
  (forall b e, sentence b Sum e ts -> (forall v m', ~ value strtod call pow m e v m') ->
     expression strtod call pow m ts = Rejected) /\
  ((forall b e, ~ sentence b Sum e ts) -> expression strtod call pow m ts = Rejected).
Proof. exact expression_otherwise. Qed.
Print Assumptions C70_no_value.

(** In particular a division by zero anywhere in it. *)
Theorem C70_division : forall strtod call pow b e ts m n p q x m1 y m2,
  sentence b Sum e ts -> part strtod call pow m e n (EBin OpDiv p q) ->
  value strtod call pow n p x m1 -> value strtod call pow m1 q y m2 -> zero y ->
  expression strtod call pow m ts = Rejected.
Proof. exact division_rejected. Qed.
Print Assumptions C70_division.

(** The text of an expression, with its tokens apart, up to the end of the line. *)
Theorem C70_text_partial : forall strtod call pow b e ts s r,
  sentence b Sum e ts -> spelled ts s -> line_end r ->
  (forall v m', value strtod call pow symrec_new e v m' ->
     expression_text strtod call pow symrec_new (s ++ r) = Parsed (v, m')) /\
  ((forall v m', ~ value strtod call pow symrec_new e v m') ->
     expression_text strtod call pow symrec_new (s ++ r) = Rejected).
Proof. exact text_meaning. Qed.
Print Assumptions C70_text_partial.

(** A sign directly before a number belongs to it: "3-2" is no expression, and
    "-2^2" is the square of -2. *)
Theorem C70_refuted : forall strtod call pow a b,
  strtod (chars "-2") = Some a -> strtod (chars "2") = Some b ->
  expression_text strtod call pow symrec_new (chars "3-2") = Rejected /\
  expression_text strtod call pow symrec_new (chars "-2^2") = Parsed (pow a b, symrec_new).
Proof. exact signs_swallowed. Qed.
Print Assumptions C70_refuted.

(** No text assigns a variable or reads one. *)
Theorem C70_no_variables : forall strtod call pow s,
  (forall x, ~ In (TVar x) (tokens symrec_new s)) /\
  (In TEquals (tokens symrec_new s) -> expression_text strtod call pow symrec_new s = Rejected).
Proof. exact no_variable_texts. Qed.
Print Assumptions C70_no_variables.

Example C70_case : forall strtod call pow a b c, strtod (chars "1") = Some a -> strtod (chars "2") = Some b -> strtod (chars "3.5E1") = Some c ->
  expression_text strtod call pow symrec_new (chars "1 - 2 - sqrt(3.5E1)^2^2 # text") =
  Parsed (Bminus (prec_gt_0_ := prec53) (prec_lt_emax_ := emax53) mode_NE
           (Bminus (prec_gt_0_ := prec53) (prec_lt_emax_ := emax53) mode_NE a b) (pow (call "sqrt"%string c) (pow b b)), symrec_new) /\
  expression_text strtod call pow symrec_new (chars "(1") = Rejected /\
  expression_text strtod call pow symrec_new (chars "SQRT(1)") = Rejected.
Proof.
  intros strtod call pow a b c A B C. unfold expression_text.
  change (tokens symrec_new (chars "1 - 2 - sqrt(3.5E1)^2^2 # text")) with
    [TNum (chars "1"); TOp OpSub; TNum (chars "2"); TOp OpSub; TFun "sqrt"; TOpen; TNum (chars "3.5E1"); TClose; TOp OpPow;
     TNum (chars "2"); TOp OpPow; TNum (chars "2")].
  change (tokens symrec_new (chars "(1")) with [TOpen; TNum (chars "1")].
  change (tokens symrec_new (chars "SQRT(1)")) with [TUnmatched; TOpen; TNum (chars "1"); TClose].
  unfold expression. split; [|split].
  - repeat (progress cbn -[chars] || rewrite A || rewrite B || rewrite C). reflexivity.
  - repeat (progress cbn -[chars] || rewrite A). reflexivity.
  - reflexivity.
Qed.

(** C71: after any history the built-in functions are there, and every other
    name has its last value since it was inserted. *)
Theorem C71_functions : forall h n f, In (n, f) builtins -> getsym (fold_left did h symrec_new) n = Some (Fnct f).
Proof. exact history_builtin. Qed.
Print Assumptions C71_functions.

Theorem C71_variables : forall h n, ~ In n (map fst builtins) ->
  getsym (fold_left did h symrec_new) n = option_map Var (last_value n h None).
Proof. exact history_variable. Qed.
Print Assumptions C71_variables.

(** One insertion into any table. *)
Theorem C71_putsym : forall t n,
  (exists s, getsym (putsym t n) n = Some s) /\
  (forall m s, getsym t m = Some s -> getsym (putsym t n) m = Some s) /\
  (forall m, m <> n -> getsym (putsym t n) m = getsym t m).
Proof. exact putsym_facts. Qed.
Print Assumptions C71_putsym.

Example C71_case : forall v,
  getsym (fold_left did [Put "x"; Assign "x" v; Put "sin"; Put "x"; Assign "y" v] symrec_new)%string "x"%string = Some (Var v) /\
  getsym (fold_left did [Put "x"; Assign "x" v; Put "sin"; Assign "sin" v] symrec_new)%string "sin"%string = Some (Fnct "sin"%string).
Proof. intros v. split; reflexivity. Qed.
