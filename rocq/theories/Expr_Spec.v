(** Specification of arithmetic expressions: the usual grammar, one level per
    precedence, and the meaning of expressions. *)
From Coq Require Import List ZArith Bool Ascii String.
From Flocq Require Import BinarySingleNaN.
From Verif Require Import Base Flt Entry_Model Expr_Model.
Import ListNotations.
Open Scope Z_scope.
#[local] Existing Instance prec53.
#[local] Existing Instance emax53.

Inductive ast :=
| ENum (s : text)
| EVar (x : string)
| EAssign (x : string) (e : ast)
| ECall (f : string) (e : ast)
| EBin (o : op) (a b : ast)
| ENeg (e : ast).

(** What an expression is made of: sums of products of possibly negated powers
    of atoms.  Sums and products group to the left, powers to the right.
    An assignment extends as far as possible, so it may only stand at the right
    end of an expression; the flag tells whether it does. *)
Inductive kind := Sum | Product | Factor | Power | Atom.
Inductive sentence : bool -> kind -> ast -> list token -> Prop :=
| s_sum b o x y tx ty : o = OpAdd \/ o = OpSub -> sentence false Sum x tx -> sentence b Product y ty ->
    sentence b Sum (EBin o x y) (tx ++ TOp o :: ty)
| s_sum1 b e ts : sentence b Product e ts -> sentence b Sum e ts
| s_product b o x y tx ty : o = OpMul \/ o = OpDiv -> sentence false Product x tx -> sentence b Factor y ty ->
    sentence b Product (EBin o x y) (tx ++ TOp o :: ty)
| s_product1 b e ts : sentence b Factor e ts -> sentence b Product e ts
| s_neg b e ts : sentence b Factor e ts -> sentence b Factor (ENeg e) (TOp OpSub :: ts)
| s_factor1 b e ts : sentence b Power e ts -> sentence b Factor e ts
| s_pow b x y tx ty : sentence false Atom x tx -> sentence b Factor y ty ->
    sentence b Power (EBin OpPow x y) (tx ++ TOp OpPow :: ty)
| s_power1 b e ts : sentence b Atom e ts -> sentence b Power e ts
| s_num s : sentence false Atom (ENum s) [TNum s]
| s_var x : sentence false Atom (EVar x) [TVar x]
| s_paren b e ts : sentence b Sum e ts -> sentence false Atom e (TOpen :: ts ++ [TClose])
| s_call b f e ts : sentence b Sum e ts -> sentence false Atom (ECall f e) (TFun f :: TOpen :: ts ++ [TClose])
| s_assign b x e ts : sentence b Sum e ts -> sentence true Atom (EAssign x e) (TVar x :: TEquals :: ts).

Section Meaning.
Variable strtod : text -> option double.
Variable call : string -> double -> double.
Variable pow : double -> double -> double.

Definition zero (x : double) : Prop := exists s, x = B754_zero s.

(** Results of operators; there is none for a division by zero. *)
Inductive result : op -> double -> double -> double -> Prop :=
| r_add x y : result OpAdd x y (Bplus mode_NE x y)
| r_sub x y : result OpSub x y (Bminus mode_NE x y)
| r_mul x y : result OpMul x y (Bmult mode_NE x y)
| r_div x y : ~ zero y -> result OpDiv x y (Bdiv mode_NE x y)
| r_pow x y : result OpPow x y (pow x y).

(** The value of an expression, from left to right, and the variables
    afterwards. *)
Inductive value : table -> ast -> double -> table -> Prop :=
| v_num m s v : strtod s = Some v -> value m (ENum s) v m
| v_var m x v : getsym m x = Some (Var v) -> value m (EVar x) v m
| v_assign m x e v m' : value m e v m' -> value m (EAssign x e) v (assign m' x v)
| v_call m f e v m' : value m e v m' -> value m (ECall f e) (call f v) m'
| v_bin m o a b x y r m1 m2 : value m a x m1 -> value m1 b y m2 -> result o x y r -> value m (EBin o a b) r m2
| v_neg m e v m' : value m e v m' -> value m (ENeg e) (Bopp v) m'.

(** [part m e n p]: evaluating [e] with the variables [m] means evaluating its
    part [p] with the variables [n]. *)
Inductive part : table -> ast -> table -> ast -> Prop :=
| p_here m e : part m e m e
| p_assign m x e n p : part m e n p -> part m (EAssign x e) n p
| p_call m f e n p : part m e n p -> part m (ECall f e) n p
| p_neg m e n p : part m e n p -> part m (ENeg e) n p
| p_left m o a b n p : part m a n p -> part m (EBin o a b) n p
| p_right m o a b x m1 n p : value m a x m1 -> part m1 b n p -> part m (EBin o a b) n p.
End Meaning.

(** Tokens as texts, with a blank before and after each one. *)
Definition op_char (o : op) : ascii :=
  match o with OpAdd => "+" | OpSub => "-" | OpMul => "*" | OpDiv => "/" | OpPow => "^" end%char.
Inductive written : token -> text -> Prop :=
| w_op o : written (TOp o) [op_char o]
| w_equals : written TEquals ["="%char]
| w_open : written TOpen ["("%char]
| w_close : written TClose [")"%char]
| w_fun n f : In (n, f) builtins -> written (TFun f) (chars n)
| w_num sg d fr ex :
    sg = [] \/ sg = ["-"%char] \/ sg = ["+"%char] ->
    d <> [] -> Forall (fun c => is_digit c = true) d ->
    fr = [] \/ (exists l, fr = "."%char :: l /\ Forall (fun c => is_digit c = true) l) ->
    ex = [] \/ (exists c sg l, ex = c :: sg ++ l /\ (c = "E" \/ c = "e")%char /\ (sg = [] \/ sg = ["-"] \/ sg = ["+"])%char /\
                 (1 <= List.length l <= 3)%nat /\ Forall (fun c => is_digit c = true) l) ->
    written (TNum (sg ++ d ++ fr ++ ex)) (sg ++ d ++ fr ++ ex).
Inductive spelled : list token -> text -> Prop :=
| sp_end : spelled [] []
| sp_blank ts s : spelled ts s -> spelled ts (" "%char :: s)
| sp_token t w ts s : written t w -> spelled ts s -> spelled (t :: ts) (w ++ " "%char :: s).

(** What follows the text of an expression. *)
Definition line_end (r : text) : Prop := match r with [] => True | c :: _ => is_newline c = true end.

(** A history of uses of the table of symbols. *)
Inductive use := Put (n : string) | Assign (n : string) (v : double).
Definition did (t : table) (u : use) : table :=
  match u with
  | Put n => putsym t n
  | Assign n v => match getsym t n with Some (Var _) => assign t n v | _ => t end   (* only of a VAR token *)
  end.
(** The value of a variable after a history: the last one assigned since it was put. *)
Fixpoint last_value (n : string) (h : list use) (v : option double) : option double :=
  match h with
  | [] => v
  | Put m :: h => last_value n h (if String.eqb m n then match v with Some _ => v | None => Some (double_of_Z 0) end else v)
  | Assign m w :: h => last_value n h (if String.eqb m n then match v with Some _ => Some w | None => None end else v)
  end.
