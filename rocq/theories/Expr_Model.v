(** Arithmetic expressions of input files: the scanner's expression state
    (src/lexer.ll), the rules for expr with their precedences (src/parse.yy) and
    the table of symbols (src/calc.cpp).  [strtod], [pow] and the built-in
    functions are arguments. *)
From Coq Require Import List ZArith Bool Ascii String.
From Flocq Require Import BinarySingleNaN.
From Verif Require Import Base Flt Entry_Model.
Import ListNotations.
Open Scope Z_scope.
#[local] Existing Instance prec53.
#[local] Existing Instance emax53.

(** ** Scanner *)

Definition text := list ascii.
Definition code (c : ascii) : Z := Z.of_N (N_of_ascii c).
Definition is_digit (c : ascii) : bool := (48 <=? code c) && (code c <=? 57).
Definition is_alpha (c : ascii) : bool :=
  (65 <=? code c) && (code c <=? 90) || (97 <=? code c) && (code c <=? 122).
Definition is_blank (c : ascii) : bool := Ascii.eqb c " " || Ascii.eqb c (ascii_of_nat 9).
Definition newline : ascii := ascii_of_nat 10.
Definition is_newline (c : ascii) : bool := Ascii.eqb c newline.
(** %option case-insensitive, src/lexer.ll:55. *)
Definition upper (c : ascii) : ascii :=
  if (97 <=? code c) && (code c <=? 122) then ascii_of_N (Z.to_N (code c - 32)) else c.

(** Number of leading characters with a property. *)
Fixpoint span (f : ascii -> bool) (s : text) : nat :=
  match s with c :: r => if f c then S (span f r) else O | [] => O end.

(** The pattern of NUM, src/lexer.ll:118: an optional sign, any number of
    digits, optionally a point and any number of digits, optionally E, a sign
    or not, and one to three digits.  Every choice is settled by the next
    character, so taking each part whenever it is there is the longest match. *)
Definition is_sign (c : ascii) : bool := Ascii.eqb c "-" || Ascii.eqb c "+".
Definition sign_len (s : text) : nat := match s with c :: _ => if is_sign c then 1 else 0 | [] => 0 end%nat.
Definition fraction_len (s : text) : nat :=
  match s with c :: r => if Ascii.eqb c "." then S (span is_digit r) else 0 | [] => 0 end%nat.
Definition exponent_len (s : text) : nat :=
  match s with
  | c :: r =>
      if Ascii.eqb (upper c) "E" then
        let n := sign_len r in
        match Nat.min 3 (span is_digit (skipn n r)) with O => O | k => S (n + k) end
      else O
  | [] => O
  end.
Definition num_len (s : text) : nat :=
  let a := sign_len s in
  let b := (a + span is_digit (skipn a s))%nat in
  let c := (b + fraction_len (skipn b s))%nat in
  (c + exponent_len (skipn c s))%nat.

(** Letters followed by any number of digits, src/lexer.ll:124. *)
Definition word_len (s : text) : nat :=
  match span is_alpha s with O => O | n => (n + span is_digit (skipn n s))%nat end.

(** A literal pattern. *)
Fixpoint literal_len (p s : text) : nat :=
  match p with
  | [] => O
  | x :: p' =>
      match s with
      | c :: r =>
          if Ascii.eqb (upper c) x
          then match p' with [] => 1 | _ => match literal_len p' r with O => O | n => S n end end
          else 0
      | [] => 0
      end
  end%nat.
Definition one (f : ascii -> bool) (s : text) : nat := match s with c :: _ => if f c then 1 else 0 | [] => 0 end%nat.

(** Tokens of expressions; all others only matter by not being among them. *)
Inductive op := OpAdd | OpSub | OpMul | OpDiv | OpPow.
Inductive token :=
| TOp (o : op) | TEquals | TOpen | TClose
| TNum (s : text) | TVar (x : string) | TFun (f : string)
| TOther (s : text) | TUnmatched.

(** What a rule does with the text it matched. *)
Inductive action := Skip | Give (t : token) | Number | Word | Leave (t : token) | EndOfLine.

Definition chars (s : string) : text := list_ascii_of_string s.
Definition letter (s : string) : (text -> nat) * action := (literal_len (chars s), Give (TOther (chars s))).

(** The rules of the state <expression>, src/lexer.ll:96-155, in order. *)
Definition rules : list ((text -> nat) * action) :=
  [ (fun s => match one (Ascii.eqb "#") s with O => O | _ => span (fun c => negb (is_newline c)) s end, Skip);
    (span is_blank, Skip);
    (literal_len (chars "AUTO"), Leave (TOther (chars "AUTO")));
    (literal_len (chars "TABLE"), Leave (TOther (chars "TABLE")));
    (one (Ascii.eqb "="), Give TEquals);
    (one (Ascii.eqb "+"), Give (TOp OpAdd));
    (one (Ascii.eqb "-"), Give (TOp OpSub));
    (one (Ascii.eqb "*"), Give (TOp OpMul));
    (one (Ascii.eqb "/"), Give (TOp OpDiv));
    (one (Ascii.eqb "^"), Give (TOp OpPow));
    (one (Ascii.eqb "("), Give TOpen);
    (one (Ascii.eqb ")"), Give TClose);
    letter "C"; letter "G"; letter "N"; letter "S"; letter "E"; letter "W";
    letter "AU"; letter "KM"; letter "CW"; letter "CCW";
    (num_len, Number);
    (word_len, Word);
    (one (fun c => negb (is_newline c)), Leave TUnmatched);
    (one is_newline, EndOfLine) ].

(** Flex takes the rule with the longest match, the first one among equals. *)
Fixpoint longest (rs : list ((text -> nat) * action)) (s : text) (best : nat * action) : nat * action :=
  match rs with
  | [] => best
  | (f, a) :: rs => longest rs s (if (fst best <? f s)%nat then (f s, a) else best)
  end.
Definition match_at (s : text) : nat * action := longest rules s (O, EndOfLine).

(** ** Symbols *)

(** sym_entry, src/calc.h:31-66: a function or a variable. *)
Inductive symbol := Fnct (f : string) | Var (v : double).
(** The map from names to entries. *)
Definition table := list (string * symbol).
(** [symrec::getsym], src/calc.cpp:80-88. *)
Fixpoint getsym (t : table) (name : string) : option symbol :=
  match t with
  | [] => None
  | (n, s) :: r => if String.eqb n name then Some s else getsym r name
  end.
(** [std::map::emplace] inserts only new names. *)
Definition emplace (t : table) (name : string) (s : symbol) : table :=
  match getsym t name with Some _ => t | None => (name, s) :: t end.
(** [symrec::putsym], src/calc.cpp:66-78: a variable with value 0. *)
Definition putsym (t : table) (name : string) : table := emplace t name (Var (double_of_Z 0)).
(** [symrec::symrec], src/calc.cpp:35-64.  A built-in is known by its C function. *)
Definition builtins : list (string * string) :=
  [ ("sin", "sin"); ("cos", "cos"); ("tan", "tan"); ("asin", "asin"); ("acos", "acos"); ("atan", "atan");
    ("ln", "log"); ("exp", "exp"); ("sqrt", "sqrt") ]%string.
Definition symrec_new : table := fold_left (fun t b => emplace t (fst b) (Fnct (snd b))) builtins [].
(** Assignment through the pointer [getsym] returned, src/parse.yy:2137. *)
Fixpoint assign (t : table) (name : string) (v : double) : table :=
  match t with
  | [] => []
  | (n, s) :: r => if String.eqb n name then (n, Var v) :: r else (n, s) :: assign r name v
  end.

(** The tokens of the rest of a line, scanned in the state <expression>.  The
    scanner leaves the state with a line, with AUTO, TABLE and with characters
    it does not know (actions at src/lexer.ll:98-99, 147-155); what it finds
    afterwards is no part of the expression.  [fuel] bounds the number of
    matches; each takes at least one character. *)
Fixpoint scan (t : table) (fuel : nat) (s : text) : list token :=
  match fuel with
  | O => []
  | S fuel =>
      let '(n, a) := match_at s in
      let m := firstn n s in
      let r := skipn n s in
      match a with
      | Skip => scan t fuel r
      | Give k => k :: scan t fuel r
      | Number => TNum m :: scan t fuel r
      | Word =>                                          (* src/lexer.ll:124-146 *)
          match getsym t (string_of_list_ascii m) with
          | Some (Fnct f) => TFun f :: scan t fuel r
          | Some (Var _) => TVar (string_of_list_ascii m) :: scan t fuel r
          | None => TUnmatched :: scan t fuel r
          end
      | Leave k => [k]
      | EndOfLine => []
      end
  end.
Definition tokens (t : table) (s : text) : list token := scan t (List.length s) s.

(** ** Parser *)

(** Precedences, src/parse.yy:457-461, from low to high. *)
Definition level (o : op) : Z := match o with OpAdd | OpSub => 2 | OpMul | OpDiv => 3 | OpPow => 5 end.
Definition level_equals : Z := 1.
Definition level_neg : Z := 4.
Definition right_assoc (l : Z) : bool := (l =? 1) || (l =? 5).

Section Parser.
Variable strtod : text -> option double.            (* None: from_string fails *)
Variable call : string -> double -> double.
Variable pow : double -> double -> double.

(** The semantic actions, src/parse.yy:2131-2155. *)
Definition binary (o : op) (x y : double) : parsed double :=
  match o with
  | OpAdd => Parsed (Bplus mode_NE x y)
  | OpSub => Parsed (Bminus mode_NE x y)
  | OpMul => Parsed (Bmult mode_NE x y)
  | OpDiv => if Beqb y (double_of_Z 0) then Rejected else Parsed (Bdiv mode_NE x y)
  | OpPow => Parsed (pow x y)
  end.

(** The LR stack.  A prefix of a sentence that the rules allow is a sequence
    of unfinished rules, innermost first, maybe followed by a finished expr. *)
Inductive frame :=
| FBin (x : double) (o : op)      (* expr op . *)
| FNeg                            (* '-' . *)
| FAssign (x : string)            (* VAR '=' . *)
| FOpen                           (* '(' . *)
| FName (f : string)              (* FNCT . *)
| FCall (f : string).             (* FNCT '(' . *)
Inductive top := TopNone | TopVar (x : string) | TopExpr (v : double).
Record state := St { st_vars : table; st_frames : list frame; st_top : top }.

(** Precedence of the rule that a frame begins; [None]: it cannot end with expr. *)
Definition frame_level (f : frame) : option Z :=
  match f with
  | FBin _ o => Some (level o)
  | FNeg => Some level_neg
  | FAssign _ => Some level_equals
  | FOpen | FName _ | FCall _ => None
  end.

(** Bison's resolution of a rule (to reduce) against a lookahead operator (to
    shift): the higher one, and by associativity among equals. *)
Definition reduces (rule : Z) (lookahead : option Z) : bool :=
  match lookahead with
  | None => true                          (* ')' or what follows the expression *)
  | Some l => (l <? rule) || (l =? rule) && negb (right_assoc l)
  end.

(** The action of a rule that is complete with [v]. *)
Definition complete (vars : table) (f : frame) (v : double) : parsed (table * double) :=
  match f with
  | FBin x o => pbind (binary o x v) (fun r => Parsed (vars, r))
  | FNeg => Parsed (vars, Bopp v)
  | FAssign x => Parsed (assign vars x v, v)
  | FOpen | FName _ | FCall _ => Parsed (vars, v)
  end.

(** All reductions before a lookahead of the given precedence. *)
Fixpoint reduce (la : option Z) (fs : list frame) (vars : table) (v : double) : parsed (table * list frame * double) :=
  match fs with
  | f :: r =>
      match frame_level f with
      | Some l =>
          if reduces l la
          then pbind (complete vars f v) (fun '(vars, w) => reduce la r vars w)
          else Parsed (vars, fs, v)
      | None => Parsed (vars, fs, v)
      end
  | [] => Parsed (vars, [], v)
  end.

(** expr: VAR, reduced before every token but '='. *)
Definition settle (st : state) : parsed state :=
  match st_top st with
  | TopVar x =>
      match getsym (st_vars st) x with
      | Some (Var v) => Parsed (St (st_vars st) (st_frames st) (TopExpr v))
      | _ => Rejected
      end
  | _ => Parsed st
  end.

(** An operand may begin here. *)
Definition fresh (st : state) : bool :=
  match st_top st, st_frames st with
  | TopNone, FName _ :: _ => false
  | TopNone, _ => true
  | _, _ => false
  end.

Definition step (st : state) (t : token) : parsed state :=
  match t with
  | TNum s =>
      if fresh st then match strtod s with
                       | Some v => Parsed (St (st_vars st) (st_frames st) (TopExpr v))
                       | None => Rejected
                       end
      else Rejected
  | TVar x => if fresh st then Parsed (St (st_vars st) (st_frames st) (TopVar x)) else Rejected
  | TFun f => if fresh st then Parsed (St (st_vars st) (FName f :: st_frames st) TopNone) else Rejected
  | TOpen =>
      match st_top st, st_frames st with
      | TopNone, FName f :: r => Parsed (St (st_vars st) (FCall f :: r) TopNone)
      | TopNone, r => Parsed (St (st_vars st) (FOpen :: r) TopNone)
      | _, _ => Rejected
      end
  | TEquals =>
      match st_top st with
      | TopVar x => Parsed (St (st_vars st) (FAssign x :: st_frames st) TopNone)
      | _ => Rejected
      end
  | TOp o =>
      match st_top st with
      | TopNone =>
          match o with
          | OpSub => if fresh st then Parsed (St (st_vars st) (FNeg :: st_frames st) TopNone) else Rejected
          | _ => Rejected
          end
      | _ =>
          pbind (settle st) (fun st =>
          match st_top st with
          | TopExpr v =>
              pbind (reduce (Some (level o)) (st_frames st) (st_vars st) v) (fun '(vars, fs, v) =>
              Parsed (St vars (FBin v o :: fs) TopNone))
          | _ => Rejected
          end)
      end
  | TClose =>
      pbind (settle st) (fun st =>
      match st_top st with
      | TopExpr v =>
          pbind (reduce None (st_frames st) (st_vars st) v) (fun '(vars, fs, v) =>
          match fs with
          | FOpen :: r => Parsed (St vars r (TopExpr v))
          | FCall f :: r => Parsed (St vars r (TopExpr (call f v)))
          | _ => Rejected
          end)
      | _ => Rejected
      end)
  | TOther _ | TUnmatched => Rejected
  end.

Fixpoint steps (st : state) (ts : list token) : parsed state :=
  match ts with [] => Parsed st | t :: r => pbind (step st t) (fun st => steps st r) end.

(** The value of an expression made of the given tokens, and the variables
    afterwards.  The token that follows is one that no rule continues with. *)
Definition expression (vars : table) (ts : list token) : parsed (double * table) :=
  pbind (steps (St vars [] TopNone) ts) (fun st =>
  pbind (settle st) (fun st =>
  match st_top st with
  | TopExpr v =>
      pbind (reduce None (st_frames st) (st_vars st) v) (fun '(vars, fs, v) =>
      match fs with [] => Parsed (v, vars) | _ => Rejected end)
  | _ => Rejected
  end)).

(** A keyword whose value is an expression and nothing else (such as
    KM_PER_PIXEL ':' expr): the text after the colon. *)
Definition expression_text (vars : table) (s : text) : parsed (double * table) := expression vars (tokens vars s).
End Parser.
