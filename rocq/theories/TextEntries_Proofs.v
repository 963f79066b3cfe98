(** Files say what is written in them. *)
From Coq Require Import List ZArith Bool Ascii String Lia.
From Flocq Require Import BinarySingleNaN.
From Verif Require Import Base Flt Num Spheroid_Model Entry_Model Expr_Model Expr_Spec Expr_Proofs Parse_Model Text_Model
  TextGrammar_Proofs Text_Spec Text_Proofs TextEntries_Spec.
Import ListNotations.
Open Scope Z_scope.
#[local] Arguments expression : simpl never.
#[local] Arguments number_of : simpl never.
#[local] Arguments symrec_new : simpl never.

(** ** Numbers *)

Lemma digit_char_value d : 0 <= d <= 9 -> digit_value (digit_char d) = d /\ is_digit (digit_char d) = true.
Proof.
  intro H. assert (D : d = 0 \/ d = 1 \/ d = 2 \/ d = 3 \/ d = 4 \/ d = 5 \/ d = 6 \/ d = 7 \/ d = 8 \/ d = 9) by lia.
  decompose [or] D; subst; split; reflexivity.
Qed.
Lemma digit_value_char c : is_digit c = true -> 0 <= digit_value c <= 9 /\ digit_char (digit_value c) = c.
Proof.
  intro H. apply digit_cases in H. cbn in H. decompose [or] H; subst; try contradiction; (split; [split; discriminate|reflexivity]).
Qed.
Lemma digits_text l s : digits l s -> Forall (fun c => is_digit c = true) s /\ map digit_value s = l /\ List.length s = List.length l.
Proof.
  intros [F ->]. rewrite map_length. split; [|split; [|reflexivity]].
  - induction F as [|d l H _ IH]; constructor; [apply digit_char_value, H|exact IH].
  - induction F as [|d l H _ IH]; [reflexivity|]. cbn [map]. rewrite IH. f_equal. apply digit_char_value, H.
Qed.
Lemma text_digits s : Forall (fun c => is_digit c = true) s -> digits (map digit_value s) s.
Proof.
  induction 1 as [|c s H _ IH]; [split; [constructor|reflexivity]|]. destruct IH as [I1 I2]. destruct (digit_value_char c H) as [V C].
  split; [constructor; assumption|]. cbn [map]. now rewrite C, <- I2.
Qed.

Definition num_shape (s : text) : Prop := exists n, number_text n s.

Lemma number_of_text n s : number_text n s -> number_of s = n.
Proof.
  destruct n as [sg i fr ex]. unfold number_text. cbn [n_sign n_digits n_fraction n_exponent].
  intros (d & f & e & -> & D & F & E). apply digits_text in D. destruct D as (D1 & D2 & D3).
  assert (HF : (f = [] /\ fr = None) \/ exists r l, f = "."%char :: r /\ fr = Some l /\ Forall (fun c => is_digit c = true) r /\ map digit_value r = l).
  { destruct fr as [l|]; [|auto]. destruct F as (r & -> & R). apply digits_text in R. right. exists r, l. tauto. }
  assert (HE : (e = [] /\ ex = None) \/ exists c b r l, e = c :: sign b ++ r /\ (c = "E" \/ c = "e")%char /\ ex = Some (b, l) /\
     Forall (fun c => is_digit c = true) r /\ map digit_value r = l /\ (1 <= List.length r <= 3)%nat).
  { destruct ex as [[b l]|]; [|auto]. destruct E as (c & r & -> & C & R & L). apply digits_text in R. destruct R as (R1 & R2 & R3).
    right. exists c, b, r, l. rewrite R3. tauto. }
  clear F E.
  assert (SG : forall Y, (match Y with c :: _ => is_sign c = false | [] => True end) -> forall b, sign_len (sign b ++ Y) = List.length (sign b)).
  { intros Y H [[]|]; try reflexivity. cbn. destruct Y as [|c Y]; [reflexivity|]. cbn. now rewrite H. }
  assert (ND : forall c s, Forall (fun c => is_digit c = true) (c :: s) -> is_sign c = false).
  { intros c s H. inversion H; subst. now apply not_digit_facts. }
  assert (H1 : match d ++ f ++ e with c :: _ => is_sign c = false | [] => True end).
  { destruct d as [|c d]; [|apply (ND c d D1)]. cbn [app].
    destruct HF as [[-> _]|(r & l & -> & _)]; [|reflexivity]. cbn [app].
    destruct HE as [[-> _]|(c & b & r & l & -> & [->| ->] & _)]; [exact I|reflexivity|reflexivity]. }
  assert (H2 : match f ++ e with c :: _ => is_digit c = false | [] => True end).
  { destruct HF as [[-> _]|(r & l & -> & _)]; [|reflexivity]. cbn [app].
    destruct HE as [[-> _]|(c & b & r & l & -> & [->| ->] & _)]; [exact I|reflexivity|reflexivity]. }
  assert (H3 : match e with c :: _ => is_digit c = false | [] => True end).
  { destruct HE as [[-> _]|(c & b & r & l & -> & [->| ->] & _)]; [exact I|reflexivity|reflexivity]. }
  unfold number_of. rewrite (SG _ H1), skipn_len, (span_app is_digit d (f ++ e) D1 H2), skipn_len, firstn_len, D2.
  assert (FL : fraction_len (f ++ e) = List.length f).
  { destruct HF as [[-> _]|(r & l & -> & _ & R & _)].
    - destruct HE as [[-> _]|(c & b & r & l & -> & [->| ->] & _)]; reflexivity.
    - cbn [app fraction_len Ascii.eqb Bool.eqb]. rewrite (span_app is_digit r e R H3). reflexivity. }
  rewrite FL, skipn_len.
  f_equal.
  - destruct sg as [[]|]; try reflexivity. cbn [sign app]. destruct (d ++ f ++ e) as [|c Y]; [reflexivity|].
    unfold is_sign in H1. apply orb_false_iff in H1. destruct H1 as [-> ->]. reflexivity.
  - destruct HF as [[-> ->]|(r & l & -> & -> & R & V)]; [reflexivity|]. cbn [List.length app skipn]. now rewrite firstn_len, V.
  - destruct HE as [[-> ->]|(c & b & r & l & -> & C & -> & R & V & L)]; [reflexivity|].
    assert (UC : Ascii.eqb (upper c) "E" = true) by (destruct C as [->| ->]; reflexivity).
    assert (NR : match r with c :: _ => is_sign c = false | [] => True end).
    { destruct r as [|x r]; [exact I|apply (ND x r R)]. }
    assert (XL : exponent_len (c :: sign b ++ r) = S (List.length (sign b) + List.length r)).
    { cbn [exponent_len]. rewrite UC, (SG r NR b), skipn_len.
      assert (S0 : span is_digit r = List.length r) by (rewrite <- (app_nil_r r) at 1; apply span_app; [exact R|exact I]).
      rewrite S0, Nat.min_r by lia. destruct (List.length r); [lia|reflexivity]. }
    rewrite XL. cbn [firstn skipn].
    assert (WH : firstn (List.length (sign b) + List.length r) (sign b ++ r) = sign b ++ r).
    { rewrite <- app_length. apply firstn_all. }
    rewrite WH, (SG r NR b), skipn_len, V. f_equal. f_equal.
    destruct b as [[]|]; try reflexivity. cbn [sign app]. destruct r as [|x r]; [reflexivity|].
    unfold is_sign in NR. apply orb_false_iff in NR. destruct NR as [-> ->]. reflexivity.
Qed.

Lemma span_firstn f s : Forall (fun c => f c = true) (firstn (span f s) s).
Proof. induction s as [|c s IH]; [constructor|]. cbn [span]. destruct (f c) eqn:E; cbn [firstn]; constructor; auto. Qed.
Lemma num_len_shape r : num_shape (firstn (num_len r) r).
Proof.
  assert (SG : forall s, exists b, firstn (sign_len s) s = sign b).
  { intros [|c s]; [now exists None|]. cbn [sign_len]. destruct (is_sign c) eqn:G; [|now exists None].
    apply sign_cases in G. destruct G as [->| ->]; [now exists (Some true)|now exists (Some false)]. }
  assert (TK : forall (a b : nat) (s : text), firstn (a + b) s = (firstn a s ++ firstn b (skipn a s))%list).
  { induction a as [|a IH]; intros b [|c s]; cbn; rewrite ?firstn_nil; try reflexivity. now rewrite IH. }
  assert (SK : forall (a b : nat) (s : text), skipn (a + b) s = skipn b (skipn a s)).
  { induction a as [|a IH]; intros b [|c s]; cbn; rewrite ?skipn_nil; auto. }
  unfold num_len. set (a := sign_len r). rewrite !TK, !SK.
  set (s1 := skipn a r). set (d := span is_digit s1). set (s2 := skipn d s1). set (f := fraction_len s2). set (s3 := skipn f s2).
  destruct (SG r) as [sg SGE]. fold a in SGE. rewrite SGE.
  assert (FR : exists o, match o with None => firstn f s2 = [] | Some l => exists q, firstn f s2 = "."%char :: q /\ digits l q end).
  { unfold f. destruct s2 as [|c s']; [now exists None|]. cbn [fraction_len]. destruct (Ascii.eqb_spec c "."); [|now exists None].
    subst c. exists (Some (map digit_value (firstn (span is_digit s') s'))). exists (firstn (span is_digit s') s').
    split; [reflexivity|]. apply text_digits, span_firstn. }
  destruct FR as [fr FR].
  assert (EX : exists o, match o with None => firstn (exponent_len s3) s3 = []
     | Some (b, l) => exists c q, firstn (exponent_len s3) s3 = c :: sign b ++ q /\ (c = "E" \/ c = "e")%char /\ digits l q /\ (1 <= List.length l <= 3)%nat end).
  { destruct s3 as [|c s']; [now exists None|]. cbn [exponent_len]. destruct (Ascii.eqb_spec (upper c) "E") as [U|U]; [|now exists None].
    destruct (Nat.min 3 (span is_digit (skipn (sign_len s') s'))) as [|k] eqn:K; [now exists None|].
    destruct (SG s') as [b SB]. exists (Some (b, map digit_value (firstn (S k) (skipn (sign_len s') s')))).
    exists c, (firstn (S k) (skipn (sign_len s') s')). split; [|split; [|split]].
    - cbn [firstn]. rewrite TK, SB. reflexivity.
    - apply upper_e, U.
    - apply text_digits. assert (KL : (S k <= span is_digit (skipn (sign_len s') s'))%nat) by lia.
      rewrite <- (Nat.min_l _ _ KL), <- firstn_firstn. apply Forall_forall. intros x X.
      pose proof (span_firstn is_digit (skipn (sign_len s') s')) as F. rewrite Forall_forall in F. apply F.
      revert X. generalize (firstn (span is_digit (skipn (sign_len s') s')) (skipn (sign_len s') s')) as l. clear.
      induction (S k) as [|n IH]; intros [|y l] X; cbn in X; try contradiction. destruct X as [->|X]; [now left|]. right. now apply IH.
    - rewrite map_length, firstn_length. pose proof (span_length is_digit (skipn (sign_len s') s')). lia. }
  destruct EX as [ex EX].
  exists (NumText sg (map digit_value (firstn d s1)) fr ex). unfold number_text. cbn [n_sign n_digits n_fraction n_exponent].
  exists (firstn d s1), (firstn f s2), (firstn (exponent_len s3) s3). split; [now rewrite <- !app_assoc|].
  split; [apply text_digits, span_firstn|]. split; [exact FR|exact EX].
Qed.

(** All numbers the scanner finds have this shape. *)
Definition shaped (ts : list tok) : Prop := forall s, In (EX (TNum s)) ts -> num_shape s.
Lemma shaped_app u v : shaped (u ++ v) -> shaped u /\ shaped v.
Proof. intro H. split; intros s I; apply H, in_app_iff; auto. Qed.
Lemma longest_from rs s : forall best, longest rs s best = best \/
  exists f a, In (f, a) rs /\ longest rs s best = (f s, a).
Proof.
  induction rs as [|[f a] rs IH]; intros best; [auto|]. cbn [longest].
  destruct (IH (if (fst best <? f s)%nat then (f s, a) else best)) as [E|(g & b & I & E)].
  - destruct (fst best <? f s)%nat; [|auto]. right. exists f, a. rewrite E. split; [now left|reflexivity].
  - right. exists g, b. split; [now right|exact E].
Qed.
Lemma best_from rs s : forall best, best_rule rs s best = best \/ exists f a, In (f, a) rs /\ best_rule rs s best = (f s, a).
Proof.
  induction rs as [|[f a] rs IH]; intros best; [auto|]. cbn [best_rule].
  destruct (IH (if (fst best <? f s)%nat then (f s, a) else best)) as [E|(g & b & I & E)].
  - destruct (fst best <? f s)%nat; [|auto]. right. exists f, a. rewrite E. split; [now left|reflexivity].
  - right. exists g, b. split; [now right|exact E].
Qed.
Lemma flex_shaped m s : shaped (fst (snd (flex m s))).
Proof.
  assert (B : forall m s, shaped (fst (snd (let '(n, f) := best_rule (own_rules m ++ shared_rules) s (O, fun _ => ([], None)) in (n, f (firstn n s)))))).
  { clear. intros m s. destruct (best_from (own_rules m ++ shared_rules) s (O, fun _ => ([], None))) as [E|(f & a & I & E)]; rewrite E.
    - intros x [].
    - cbn [fst snd]. intros x X. exfalso. apply in_app_iff in I. destruct I as [I|I].
      + destruct m; cbn [own_rules In] in I; decompose [or] I; try contradiction;
          match goal with H : _ = (_, _) |- _ => injection H as <- <- end; cbn in X; destruct X as [X|[]]; discriminate X.
      + unfold shared_rules in I. destruct I as [I|I].
        * injection I as <- <-. destruct X as [X|[]]; discriminate X.
        * apply in_app_iff in I. destruct I as [I|I].
          -- apply in_map_iff in I. destruct I as ([[p t] b] & I & _). injection I as <- <-. destruct X as [X|[]]; discriminate X.
          -- cbn [In] in I. decompose [or] I; try contradiction;
               match goal with H : _ = (_, _) |- _ => injection H as <- <- end; cbn in X; try contradiction; destruct X as [X|[]]; discriminate X. }
  unfold flex. destruct m; try apply B.
  - intros x [X|[]]; discriminate X.
  - unfold match_at. destruct (longest_from rules s (O, EndOfLine)) as [E|(f & a & I & E)]; rewrite E; cbn [fst snd].
    + intros x [].
    + assert (NUM : a = Number -> f = num_len).
      { intros ->. cbn [rules In letter] in I. decompose [or] I; try contradiction; match goal with H : _ = (_, _) |- _ => inversion H end; auto. }
      intros x X. destruct a as [|t| | |t|]; cbn [expression_effect fst] in X.
      * contradiction.
      * destruct X as [X|[]]. cbn [rules In letter] in I.
        decompose [or] I; try contradiction; match goal with H : _ = (_, _) |- _ => inversion H; subst; discriminate X end.
      * destruct X as [X|[]]. injection X as <-. rewrite (NUM eq_refl). apply num_len_shape.
      * destruct (getsym symrec_new (text_string (firstn (f s) s))) as [[|]|]; destruct X as [X|[]]; discriminate X.
      * destruct X as [X|[]]. cbn [rules In letter] in I.
        decompose [or] I; try contradiction; match goal with H : _ = (_, _) |- _ => inversion H; subst; discriminate X end.
      * contradiction.
Qed.
Lemma scan_shaped fuel : forall m s, shaped (scan_file fuel m s).
Proof.
  induction fuel as [|fuel IH]; intros m s; [intros x []|]. cbn [scan_file]. destruct s as [|c s]; [intros x []|].
  pose proof (flex_shaped m (c :: s)) as F. destruct (flex m (c :: s)) as [n [ts b]]. cbn [fst snd] in F.
  intros x X. apply in_app_iff in X. destruct X as [X|X]; [now apply F|now apply IH in X].
Qed.

(** ** Entries *)

Section Entries.
Context (strtod : text -> option double) (call : string -> double -> double) (pow : double -> double -> double).
Notation derives := (derives strtod call pow).

(** The writings of [a] by the right hand side [g]. *)
Definition at_ {A} (g : bnf A) (a : A) (d : doc) : Prop := forall ts, shaped ts -> (derives g a ts <-> d ts).

Lemma at_equiv A (g : bnf A) a d e : at_ g a d -> (forall ts, d ts <-> e ts) -> at_ g a e.
Proof. intros G E ts S. rewrite (G ts S). apply E. Qed.
Lemma at_Empty a : at_ Empty a nothing.
Proof. intros ts _. reflexivity. Qed.
Lemma at_Tok k a : at_ (Tok k) a (TextEntries_Spec.word k).
Proof. intros ts _. reflexivity. Qed.
Lemma at_Str s : at_ Str s (line s).
Proof. intros ts _. reflexivity. Qed.
Lemma at_Num n : at_ Num n (whole n).
Proof.
  intros ts S. cbn. unfold whole. split; intros (s & -> & H); exists s; (split; [reflexivity|]).
  - destruct (S s) as [n' N]; [now left|]. rewrite H, (number_of_text _ _ N). exact N.
  - symmetry. now apply number_of_text.
Qed.
Lemma at_Expr v : at_ Expr v (amount strtod call pow v).
Proof.
  intros ts _. cbn. unfold amount. split.
  - intros (l & vars & -> & E). apply expression_meaning in E. destruct E as (b & e & SE & V). exists l, b, e, vars. auto.
  - intros (l & b & e & vars & -> & SE & V). exists l, vars. split; [reflexivity|]. apply expression_meaning. eauto.
Qed.
Lemma at_Seq A B (g : bnf A) (h : bnf B) p d e : at_ g (fst p) d -> at_ h (snd p) e -> at_ (Seq g h) p (d ;+ e).
Proof.
  intros G H ts S. cbn. unfold followed_by. split; intros (u & v & -> & X & Y); apply shaped_app in S; destruct S as [SU SV];
    exists u, v; (split; [reflexivity|split; [now apply G|now apply H]]).
Qed.
Lemma at_Or A (g h : bnf A) a d e : at_ g a d -> at_ h a e -> at_ (Or g h) a (d // e).
Proof. intros G H ts S. cbn. unfold or_else. now rewrite (G ts S), (H ts S). Qed.
Lemma at_Val A B (f : A -> B) g a b d : b = f a -> (forall x, b = f x -> x = a) -> at_ g a d -> at_ (Val f g) b d.
Proof.
  intros E I G ts S. rewrite <- (G ts S), d_Val. split.
  - intros (x & X & D). rewrite (I x X) in D. exact D.
  - intro D. exists a. auto.
Qed.
Lemma at_Val_no A B (f : A -> B) g b : (forall x, b <> f x) -> at_ (Val f g) b impossible.
Proof. intros N ts _. rewrite d_Val. split; [|intros []]. intros (x & X & _). exact (N x X). Qed.
Lemma at_key A k (g : bnf A) a d : at_ g a d -> at_ (key k g) a (under k d).
Proof.
  intros G ts S. unfold key. rewrite d_Val. unfold under, followed_by, TextEntries_Spec.word. split.
  - intros ([[] [[] x]] & -> & u & v & -> & U & w & z & V & W & D). cbn [fst snd] in *. exists u, v. subst v.
    apply shaped_app in S. destruct S as [_ S]. apply shaped_app in S. destruct S as [_ S].
    split; [reflexivity|split; [exact U|]]. exists w, z. split; [reflexivity|split; [exact W|now apply G]].
  - intros (u & v & -> & U & w & z & -> & W & D). apply shaped_app in S. destruct S as [_ S]. apply shaped_app in S. destruct S as [_ S].
    exists (tt, (tt, a)). split; [reflexivity|]. exists u, (w ++ z). split; [reflexivity|split; [exact U|]].
    exists w, z. split; [reflexivity|split; [exact W|now apply G]].
Qed.
Lemma at_word A k (a : A) : at_ (Text_Model.word k a) a (TextEntries_Spec.word k).
Proof. intros ts _. unfold Text_Model.word. rewrite d_Val. split; [intros (x & _ & D); exact D|]. intro D. exists tt. auto. Qed.
Lemma at_word_no A k (a b : A) : b <> a -> at_ (Text_Model.word k a) b impossible.
Proof. intro N. apply at_Val_no. intros _. exact N. Qed.
Lemma at_none A : at_ (none (A := A)) None nothing.
Proof. intros ts _. unfold none. rewrite d_Val. split; [intros (x & _ & D); exact D|]. intro D. exists tt. auto. Qed.
Lemma at_none_no A (a : A) : at_ none (Some a) impossible.
Proof. apply at_Val_no. discriminate. Qed.
Lemma at_opt A (g : bnf A) o (d : A -> doc) : (forall a, o = Some a -> at_ g a (d a)) -> at_ (opt g) o (given o d).
Proof.
  intros G ts S. rewrite d_opt. destruct o as [a|]; cbn [given].
  - rewrite <- (G a eq_refl ts S). split.
    + intros [[X _]|(x & X & D)]; [discriminate|]. injection X as <-. exact D.
    + intro D. right. exists a. auto.
  - split; [|auto]. intros [[_ X]|(x & X & _)]; [exact X|discriminate].
Qed.
Lemma at_seq A B C (f : A -> B -> C) g h x y c d e : c = f x y -> (forall x' y', c = f x' y' -> x' = x /\ y' = y) ->
  at_ g x d -> at_ h y e -> at_ (seq f g h) c (d ;+ e).
Proof.
  intros E I G H ts S. rewrite d_seq. unfold followed_by. split.
  - intros (x' & y' & u & v & X & -> & U & V). destruct (I x' y' X) as [-> ->]. apply shaped_app in S. destruct S as [SU SV].
    exists u, v. split; [reflexivity|split; [now apply G|now apply H]].
  - intros (u & v & -> & U & V). apply shaped_app in S. destruct S as [SU SV].
    exists x, y, u, v. split; [exact E|split; [reflexivity|split; [now apply G|now apply H]]].
Qed.
Lemma at_seq_no A B C (f : A -> B -> C) g h c : (forall x y, c <> f x y) -> at_ (seq f g h) c impossible.
Proof. intros N. apply at_Val_no. intros [x y]. apply N. Qed.
Lemma at_Many A (g : bnf A) (d : A -> doc) l : (forall a, at_ g a (d a)) -> at_ (Many g) l (each d l).
Proof.
  intros G ts S. change (derives (Many g) l ts) with (exists us, ts = List.concat us /\ Forall2 (derives g) l us).
  revert ts S. induction l as [|a l IH]; intros ts S; cbn [each].
  - split; [intros (us & -> & F); inversion F; reflexivity|]. intros ->. exists []. split; [reflexivity|constructor].
  - unfold followed_by. split.
    + intros (us & -> & F). inversion F as [|? u ? us' D F']; subst. cbn [List.concat] in S |- *. apply shaped_app in S. destruct S as [SU SV].
      exists u, (List.concat us'). split; [reflexivity|]. split; [now apply G|]. apply (IH _ SV). eauto.
    + intros (u & v & -> & D & V). apply shaped_app in S. destruct S as [SU SV]. apply (IH _ SV) in V. destruct V as (us & -> & F).
      exists (u :: us). split; [reflexivity|]. constructor; [now apply G|exact F].
Qed.

Ltac inj := intros; match goal with H : _ = _ |- _ => cbn in H; first [discriminate H|injection H; intros; subst; auto] end.
Ltac build :=
  match goal with
  | |- at_ (Or _ _) _ _ => eapply at_Or; build
  | |- at_ (key _ _) _ _ => eapply at_key; build
  | |- at_ (Text_Model.word _ _) _ _ => first [apply at_word|apply at_word_no; discriminate]
  | |- at_ none _ _ => first [apply at_none|apply at_none_no]
  | |- at_ (seq _ _ _) _ _ =>
      first [apply at_seq_no; intros; discriminate|eapply at_seq; [reflexivity|intros; split; inj|build|build]]
  | |- at_ (Val _ Empty) _ _ =>
      first [apply at_Val_no; intros; discriminate|eapply (at_Val _ _ _ _ tt); [reflexivity|intros [] _; reflexivity|apply at_Empty]]
  | |- at_ (Val _ _) _ _ =>
      first [apply at_Val_no; intros; discriminate|eapply at_Val; [reflexivity|inj|build]]
  | |- at_ (Seq _ _) _ _ => eapply at_Seq; cbn [fst snd]; build
  | |- at_ Empty _ _ => apply at_Empty
  | |- at_ (Tok _) _ _ => apply at_Tok
  | |- at_ Str _ _ => apply at_Str
  | |- at_ Num _ _ => apply at_Num
  | |- at_ Expr _ _ => apply at_Expr
  | |- _ => eauto with writing
  end.
(** Alternatives that cannot be drop out. *)
Ltac tidy := let t := fresh in intro t; unfold or_else, impossible; tauto.

Lemma yes_no_at b : at_ yes_no b (yes_or_no b).
Proof. destruct b; (eapply at_equiv; [unfold yes_no; build|tidy]). Qed.
Hint Resolve yes_no_at : writing.
Lemma followed_equiv (a a' b b' : doc) : (forall ts, a ts <-> a' ts) -> (forall ts, b ts <-> b' ts) -> forall ts, (a ;+ b) ts <-> (a' ;+ b') ts.
Proof.
  intros A B ts. unfold followed_by. split; intros (u & v & -> & U & V); exists u, v;
    (split; [reflexivity|split; [now apply A|now apply B]]).
Qed.
Lemma followed_assoc (a b c : doc) ts : ((a ;+ b) ;+ c) ts <-> (a ;+ b ;+ c) ts.
Proof.
  unfold followed_by. split.
  - intros (u & w & -> & (u1 & u2 & -> & A & B) & C). exists u1, (u2 ++ w). split; [now rewrite app_assoc|]. split; [exact A|]. exists u2, w. auto.
  - intros (u & w & -> & A & (u1 & u2 & -> & B & C)). exists (u ++ u1), u2. split; [now rewrite app_assoc|]. split; [|exact C]. exists u, u1. auto.
Qed.
Lemma latitude_at x : at_ g_latitude x (latitude strtod call pow x).
Proof.
  destruct x as [v h k]. unfold latitude. cbn [le_value le_suffix le_kind].
  eapply at_equiv; [eapply (at_seq _ _ _ _ _ _ (v, h) k)|apply followed_assoc].
  - reflexivity.
  - intros [a b] c E. cbn [fst snd] in E. injection E as -> -> ->. auto.
  - eapply at_seq; [reflexivity|intros a b E; injection E as -> ->; auto|apply at_Expr|].
    destruct h; (eapply at_equiv; [build|tidy]).
  - destruct k; (eapply at_equiv; [build|tidy]).
Qed.
Hint Resolve latitude_at : writing.
Lemma longitude_at x : at_ g_longitude x (longitude strtod call pow x).
Proof.
  destruct x as [v h]. unfold longitude. cbn [lo_value lo_suffix].
  eapply at_seq; [reflexivity|intros a b E; injection E as -> ->; auto|apply at_Expr|].
  destruct h; (eapply at_equiv; [build|tidy]).
Qed.
Hint Resolve longitude_at : writing.
Lemma point_at lat lon p : at_ (g_point lat lon) p (point strtod call pow lat lon p).
Proof. destruct p; (eapply at_equiv; [unfold g_point; build|tidy]). Qed.
Hint Resolve point_at : writing.
Lemma sub_observ_at p : at_ g_sub_observ p (sub_observ strtod call pow p).
Proof. apply point_at. Qed.
Lemma sub_solar_at p : at_ g_sub_solar p (sub_solar strtod call pow p).
Proof. apply point_at. Qed.
Hint Resolve sub_observ_at sub_solar_at : writing.
Lemma position_angle_at x : at_ g_position_angle x (position_angle strtod call pow x).
Proof.
  destruct x as [v t]. apply at_key. cbn [ae_value ae_turn].
  eapply at_seq; [reflexivity|intros a b E; injection E as -> ->; auto|apply at_Expr|].
  destruct t; (eapply at_equiv; [build|tidy]).
Qed.
Lemma range_at x : at_ g_range x (range strtod call pow x).
Proof.
  destruct x as [v t]. apply at_key. cbn [re_value re_unit].
  eapply at_seq; [reflexivity|intros a b E; injection E as -> ->; auto|apply at_Expr|].
  destruct t; (eapply at_equiv; [build|tidy]).
Qed.
Lemma km_per_pixel_at x : at_ g_km_per_pixel x (under "KM_PER_PIXEL" (amount strtod call pow x)).
Proof. apply at_key, at_Expr. Qed.
Hint Resolve position_angle_at range_at km_per_pixel_at : writing.
Lemma centers_at c : at_ g_centers c (center strtod call pow c).
Proof. destruct c; (eapply at_equiv; [unfold g_centers; build|tidy]). Qed.
Hint Resolve centers_at : writing.
Lemma axis_at o : at_ g_optical_axis o (given o (axis strtod call pow)).
Proof. apply at_opt. intros a _. destruct a; (eapply at_equiv; [build|tidy]). Qed.
Lemma intervals_at i : at_ g_intervals i (grid_intervals strtod call pow i).
Proof. destruct i; (eapply at_equiv; [unfold g_intervals; build|tidy]). Qed.
Hint Resolve axis_at intervals_at : writing.
Lemma limits_at r : at_ g_data_range r (limits strtod call pow r).
Proof. destruct r; (eapply at_equiv; [unfold g_data_range; build|tidy]). Qed.
Hint Resolve limits_at : writing.
Lemma nothing_after (d : doc) ts : (d ;+ nothing) ts <-> d ts.
Proof.
  unfold followed_by, nothing. split.
  - intros (u & v & -> & D & ->). now rewrite app_nil_r.
  - intro D. exists ts, []. rewrite app_nil_r. auto.
Qed.
Lemma nothing_before (d : doc) ts : (nothing ;+ d) ts <-> d ts.
Proof.
  unfold followed_by, nothing. split.
  - intros (u & v & -> & -> & D). exact D.
  - intro D. exists [], ts. auto.
Qed.
Lemma grid_at o : at_ g_grid o (given o (fun g => under "GRID" (yes_or_no (fst g)) ;+ given (snd g) (grid_intervals strtod call pow))).
Proof.
  destruct o as [[b [i|]]|]; cbn [given fst snd].
  - eapply at_equiv; [unfold g_grid; build|tidy].
  - eapply at_equiv; [unfold g_grid; build|]. intro ts. rewrite nothing_after. unfold or_else, impossible. tauto.
  - eapply at_equiv; [unfold g_grid; build|tidy].
Qed.
Lemma scale_at s : at_ g_scale s (scale strtod call pow s).
Proof. destruct s; (eapply at_equiv; [unfold g_scale; build|tidy]). Qed.
Lemma inversion_at o : at_ g_inversion o (given o (fun v =>
    under "INVERT" (TextEntries_Spec.word (match v with vertical => "VERTICAL" | horizontal => "HORIZONTAL" | both_ways => "BOTH" end)))).
Proof. apply at_opt. intros a _. apply at_key. destruct a; (eapply at_equiv; [build|tidy]). Qed.
Lemma data_type_at o : at_ g_data_type o (given o (fun t => under "DATA_TYPE" (data_type t))).
Proof.
  apply at_opt. intros z _. apply at_key. unfold data_type.
  assert (W : forall k a, at_ (Text_Model.word k a) z (if z =? a then TextEntries_Spec.word k else impossible)).
  { intros k a. destruct (Z.eqb_spec z a) as [->|N]; [apply at_word|now apply at_word_no]. }
  eapply at_equiv; [repeat (apply at_Or; [apply W|]); apply W|].
  intro ts. unfold or_else, impossible.
  destruct (Z.eqb_spec z 8) as [->|]; [cbn; tauto|]. destruct (Z.eqb_spec z 16) as [->|]; [cbn; tauto|].
  destruct (Z.eqb_spec z 32) as [->|]; [cbn; tauto|]. destruct (Z.eqb_spec z 64) as [->|]; [cbn; tauto|].
  destruct (Z.eqb_spec z (-32)) as [->|]; [cbn; tauto|]. destruct (Z.eqb_spec z (-64)) as [->|]; cbn; tauto.
Qed.
Hint Resolve grid_at scale_at inversion_at data_type_at : writing.
Lemma radii_at r : at_ g_radii r (radii_written strtod call pow r).
Proof. destruct r; (eapply at_equiv; [unfold g_radii; build|unfold radii_written; tidy]). Qed.
Hint Resolve radii_at : writing.
Lemma options_at a : at_ g_options a (options a).
Proof. apply at_key, at_opt. intros x _. apply at_key. destruct x; (eapply at_equiv; [build|tidy]). Qed.
Hint Resolve options_at : writing.
Lemma under_equiv k (d e : doc) : (forall ts, d ts <-> e ts) -> forall ts, under k d ts <-> under k e ts.
Proof. intro H. apply followed_equiv; [tauto|]. apply followed_equiv; [tauto|exact H]. Qed.
Lemma or_equiv (a a' b b' : doc) : (forall ts, a ts <-> a' ts) -> (forall ts, b ts <-> b' ts) -> forall ts, (a // b) ts <-> (a' // b') ts.
Proof. intros A B ts. unfold or_else. now rewrite A, B. Qed.
Lemma lat_type_at o : at_ g_lat_type o (given o type_of_latitude).
Proof.
  assert (K : forall k, at_ (key "LATITUDE_TYPE" (Or (Text_Model.word "CENTRIC" (Some Centric)) (Text_Model.word "GRAPHIC" (Some Graphic)))) (Some k)
    (under "LATITUDE_TYPE" (lat_kind_word k))).
  { intro k. apply at_key. destruct k; (eapply at_equiv; [build|tidy]). }
  destruct o as [k|]; cbn [given].
  - unfold type_of_latitude. destruct k; (eapply at_equiv; [apply at_Or; [build|apply at_Or; [apply K|build]]|]); tidy.
  - assert (N : at_ (key "LATITUDE_TYPE" (Or (Text_Model.word "CENTRIC" (Some Centric)) (Text_Model.word "GRAPHIC" (Some Graphic)))) None impossible).
    { eapply at_equiv; [apply at_key; build|]. intro ts. unfold under, followed_by, or_else, impossible. firstorder. }
    eapply at_equiv; [apply at_Or; [build|apply at_Or; [apply N|build]]|]; tidy.
Qed.
Hint Resolve lat_type_at : writing.
Lemma lat_range_at r : at_ g_lat_range r (lat_limits strtod call pow r).
Proof. destruct r; (eapply at_equiv; [unfold g_lat_range; build|tidy]). Qed.
Lemma lon_range_at r : at_ g_lon_range r (lon_limits strtod call pow r).
Proof. destruct r; (eapply at_equiv; [unfold g_lon_range; build|tidy]). Qed.
Hint Resolve lat_range_at lon_range_at : writing.

(** Nibbling *)
Definition orders (a b : side) : list (list side) := [[a]; [b]; [a; b]; [b; a]].
Lemma orderly_iff k : orderly k = true <->
  k = [] \/ k = [all_sides] \/ In k (orders left_side right_side) \/ In k (orders top_side bottom_side) \/
  (exists a b, k = a ++ b /\ In a (orders left_side right_side) /\ In b (orders top_side bottom_side)) \/
  (exists a b, k = a ++ b /\ In a (orders top_side bottom_side) /\ In b (orders left_side right_side)).
Proof.
  split.
  - intro H.
    assert (D : k = [] \/ k = [all_sides] \/ In k (orders left_side right_side) \/ In k (orders top_side bottom_side) \/
      In k (flat_map (fun a => map (fun b => a ++ b) (orders top_side bottom_side)) (orders left_side right_side)) \/
      In k (flat_map (fun a => map (fun b => a ++ b) (orders left_side right_side)) (orders top_side bottom_side))).
    { destruct k as [|a k]; [auto|]. destruct k as [|b k]; [destruct a; cbn; tauto|].
      destruct k as [|c k]; [destruct a, b; try discriminate H; cbn; tauto|].
      destruct k as [|d k]; [destruct a, b; try discriminate H; destruct c; try discriminate H; cbn; tauto|].
      destruct k as [|e k]; [destruct a, b; try discriminate H; destruct c; try discriminate H; destruct d; try discriminate H; cbn; tauto|].
      exfalso. destruct a, b; try discriminate H; destruct c; try discriminate H; destruct d; discriminate H. }
    destruct D as [D|[D|[D|[D|[D|D]]]]]; auto; apply in_flat_map in D; destruct D as (a & A & D); apply in_map_iff in D;
      destruct D as (b & <- & B); [do 4 right; left|do 5 right]; exists a, b; auto.
  - unfold orders. cbn [In].
    intros [->|[->|[H|[H|[(a & b & -> & A & B)|(a & b & -> & A & B)]]]]]; try reflexivity.
    + decompose [or] H; subst; try contradiction; reflexivity.
    + decompose [or] H; subst; try contradiction; reflexivity.
    + decompose [or] A; try contradiction; subst; decompose [or] B; try contradiction; subst; reflexivity.
    + decompose [or] A; try contradiction; subst; decompose [or] B; try contradiction; subst; reflexivity.
Qed.
Definition side_doc (x : side * number) : doc := under (side_key (fst x)) (whole (snd x)).
Lemma each_app A (f : A -> doc) a b ts : each f (a ++ b) ts <-> (each f a ;+ each f b) ts.
Proof.
  revert ts. induction a as [|x a IH]; intro ts; cbn [each app].
  - symmetry. apply nothing_before.
  - rewrite followed_assoc. apply followed_equiv; [tauto|exact IH].
Qed.
Lemma each_one A (f : A -> doc) a ts : each f [a] ts <-> f a ts.
Proof. cbn [each]. apply nothing_after. Qed.
Lemma side_at s x : derives (g_side (side_key s) s) x = derives (Val (pair s) (key (side_key s) Num)) x.
Proof. reflexivity. Qed.
Lemma side_iff s x ts : shaped ts -> (derives (g_side (side_key s) s) x ts <-> fst x = s /\ side_doc x ts).
Proof.
  intro S. unfold g_side. rewrite d_Val. destruct x as [s' n]. unfold side_doc. cbn [fst snd]. split.
  - intros (m & E & D). injection E as -> ->. split; [reflexivity|]. revert D. apply (at_key _ (side_key s) Num m (whole m)); [apply at_Num|exact S].
  - intros [-> D]. exists n. split; [reflexivity|]. revert D. apply (at_key _ (side_key s) Num n (whole n)); [apply at_Num|exact S].
Qed.
Lemma either_iff a b l ts : shaped ts ->
  (derives (g_either (g_side (side_key a) a) (g_side (side_key b) b)) l ts <-> In (map fst l) (orders a b) /\ each side_doc l ts).
Proof.
  intro S. unfold g_either. rewrite !d_Or, !d_Val, !d_seq. unfold orders. cbn [In]. split.
  - intros [(x & -> & D)|[(x & -> & D)|[(x & y & u & v & -> & -> & D & E)|(x & y & u & v & -> & -> & D & E)]]].
    + apply (side_iff a x ts S) in D. destruct D as [<- D]. cbn [map]. split; [auto|now apply each_one].
    + apply (side_iff b x ts S) in D. destruct D as [<- D]. cbn [map]. split; [auto|now apply each_one].
    + apply shaped_app in S. destruct S as [SU SV]. apply (side_iff a x u SU) in D. apply (side_iff b y v SV) in E.
      destruct D as [<- D], E as [<- E]. split; [cbn; auto|]. exists u, v. split; [reflexivity|split; [exact D|now apply each_one]].
    + apply shaped_app in S. destruct S as [SU SV]. apply (side_iff b x u SU) in D. apply (side_iff a y v SV) in E.
      destruct D as [<- D], E as [<- E]. split; [cbn; auto|]. exists u, v. split; [reflexivity|split; [exact D|now apply each_one]].
  - intros [O D]. destruct l as [|x l]; [cbn in O; decompose [or] O; try discriminate; contradiction|].
    destruct l as [|y l].
    + apply (proj1 (each_one _ _ _ _)) in D. cbn [map] in O. destruct O as [O|[O|[O|[O|[]]]]]; try discriminate O; injection O as O.
      * left. exists x. split; [reflexivity|]. apply (side_iff a x ts S); split; [congruence|assumption].
      * right. left. exists x. split; [reflexivity|]. apply (side_iff b x ts S); split; [congruence|assumption].
    + destruct l as [|z l]; [|cbn in O; decompose [or] O; try discriminate; contradiction].
      destruct D as (u & v & -> & D & E). apply (proj1 (each_one _ _ _ _)) in E. apply shaped_app in S. destruct S as [SU SV].
      cbn [map] in O. destruct O as [O|[O|[O|[O|[]]]]]; try discriminate O; injection O as O1 O2.
      * right. right. left. exists x, y, u, v. split; [reflexivity|split; [reflexivity|]].
        split; [apply (side_iff a x u SU); split; [congruence|assumption]|apply (side_iff b y v SV); split; [congruence|assumption]].
      * right. right. right. exists x, y, u, v. split; [reflexivity|split; [reflexivity|]].
        split; [apply (side_iff b x u SU); split; [congruence|assumption]|apply (side_iff a y v SV); split; [congruence|assumption]].
Qed.
Lemma map_split A B (f : A -> B) l a b : map f l = a ++ b -> exists l1 l2, l = l1 ++ l2 /\ map f l1 = a /\ map f l2 = b.
Proof.
  revert l. induction a as [|x a IH]; intros l E; [exists [], l; auto|]. destruct l as [|y l]; [discriminate|]. injection E as <- E.
  destruct (IH l E) as (l1 & l2 & -> & <- & <-). exists (y :: l1), l2. auto.
Qed.
Lemma nibbling_at l : at_ g_nibbling l (nibbles_written l).
Proof.
  intros ts S. unfold g_nibbling, nibbles_written, g_nibble_samples, g_nibble_lines.
  assert (G : forall a b l' us, shaped us -> (derives (g_either (g_side (side_key a) a) (g_side (side_key b) b)) l' us <-> In (map fst l') (orders a b) /\ each side_doc l' us))
    by (intros; now apply either_iff).
  change "NIBBLE"%string with (side_key all_sides). change "NIBBLE_LEFT"%string with (side_key left_side).
  change "NIBBLE_RIGHT"%string with (side_key right_side). change "NIBBLE_TOP"%string with (side_key top_side).
  change "NIBBLE_BOTTOM"%string with (side_key bottom_side).
  assert (N : (if orderly (map fst l) then each side_doc l else impossible) ts <-> orderly (map fst l) = true /\ each side_doc l ts).
  { destruct (orderly (map fst l)); unfold impossible; intuition discriminate. }
  change (each (fun x => under (side_key (fst x)) (whole (snd x))) l) with (each side_doc l). rewrite N, orderly_iff. clear N.
  rewrite !d_Or, !d_Val, !d_seq, !(G _ _ l ts S). split.
  - intros [(x & -> & D)|[(x & -> & D)|[[O D]|[[O D]|[(x & y & u & v & -> & -> & D & E)|(x & y & u & v & -> & -> & D & E)]]]]].
    + split; [auto|exact D].
    + apply (side_iff all_sides x ts S) in D. destruct D as [F D]. split; [right; left; cbn; now rewrite F|now apply each_one].
    + auto.
    + auto 6.
    + apply shaped_app in S. destruct S as [SU SV]. apply (G _ _ x u SU) in D. apply (G _ _ y v SV) in E.
      destruct D as [O1 D], E as [O2 E]. split; [|apply each_app; exists u, v; auto].
      do 4 right. left. exists (map fst x), (map fst y). split; [apply map_app|auto].
    + apply shaped_app in S. destruct S as [SU SV]. apply (G _ _ x u SU) in D. apply (G _ _ y v SV) in E.
      destruct D as [O1 D], E as [O2 E]. split; [|apply each_app; exists u, v; auto].
      do 5 right. exists (map fst x), (map fst y). split; [apply map_app|auto].
  - intros [[O|[O|[O|[O|[(a & b & O & A & B)|(a & b & O & A & B)]]]]] D].
    + left. destruct l; [|discriminate O]. exists tt. auto.
    + right. left. destruct l as [|x [|]]; try discriminate O. injection O as O. exists x. split; [reflexivity|].
      apply (proj1 (each_one _ _ _ _)) in D. apply (side_iff all_sides x ts S); split; [congruence|assumption].
    + right. right. left. auto.
    + do 3 right. left. auto.
    + do 4 right. left. apply map_split in O. destruct O as (l1 & l2 & -> & <- & <-). apply each_app in D.
      destruct D as (u & v & -> & D & E). apply shaped_app in S. destruct S as [SU SV].
      exists l1, l2, u, v. split; [reflexivity|split; [reflexivity|]]. split; [now apply G|now apply G].
    + do 5 right. apply map_split in O. destruct O as (l1 & l2 & -> & <- & <-). apply each_app in D.
      destruct D as (u & v & -> & D & E). apply shaped_app in S. destruct S as [SU SV].
      exists l1, l2, u, v. split; [reflexivity|split; [reflexivity|]]. split; [now apply G|now apply G].
Qed.
Hint Resolve nibbling_at : writing.

Lemma photo_correct_at u : at_ g_photo_correct u
  (nothing // under "MINNAERT" ((fun ts => exists v, amount strtod call pow v ts) // TextEntries_Spec.word "AUTO" // TextEntries_Spec.word "TABLE")).
Proof.
  intros ts S. unfold g_photo_correct. rewrite d_Val. destruct u.
  assert (G : at_ (Or (Val (fun _ => tt) Expr) (Or (Tok "AUTO") (Tok "TABLE"))) tt
     ((fun ts => exists v, amount strtod call pow v ts) // TextEntries_Spec.word "AUTO" // TextEntries_Spec.word "TABLE")).
  { apply at_Or; [|build]. intros us SU. rewrite d_Val. split.
    - intros (v & _ & D). exists v. now apply at_Expr.
    - intros (v & D). exists v. split; [reflexivity|]. now apply at_Expr. }
  assert (K := at_key _ "MINNAERT" _ _ _ G). unfold or_else at 1. rewrite <- (K ts S). split.
  - intros (o & _ & D). apply d_opt in D. destruct D as [[_ D]|(x & _ & D)]; [now left|]. right. destruct x. exact D.
  - intros [D|D].
    + exists None. split; [reflexivity|]. apply d_opt. now left.
    + exists (Some tt). split; [reflexivity|]. apply d_opt. right. eauto.
Qed.
Hint Resolve photo_correct_at : writing.

Lemma image_at i : at_ g_image i (image strtod call pow i).
Proof.
  destruct i as [file nib inv int sky cen axis flat geom emi term obs pos sol ran sc].
  apply (at_Val _ _ _ _ (file, (nib, (inv, (int, (sky, (cen, (axis, (flat, (tt, (geom, (emi, (term, (obs, (pos, (sol, (ran, sc))))))))))))))))).
  - reflexivity.
  - intros (f & nb & iv & it & sk & ce & ax & fl & [] & ge & em & te & ob & po & so & ra & s') E. injection E as -> -> -> -> -> -> -> -> -> -> -> -> -> -> -> ->. reflexivity.
  - unfold image. cbn [ie_file ie_nibbling ie_inversion ie_interpolate ie_remove_sky ie_centers ie_axis ie_flat_field ie_geom_correct
      ie_emi_ang_limit ie_terminator ie_sub_observ ie_position_angle ie_sub_solar ie_range ie_scale].
    repeat (apply at_Seq; cbn [fst snd]); try apply inversion_at; try apply axis_at; try (apply at_opt; intros ? _); build.
Qed.
Hint Resolve image_at : writing.

Lemma plane_type_at t : at_ g_plane_type t (content strtod call pow t).
Proof.
  assert (MU : forall o r s, at_ (key "MU" (Or (seq (fun o r => T_mu o r None) g_sub_observ g_range)
                    (seq (fun o r => T_mu o (fst r) (Some (snd r))) g_sub_observ (Seq g_range g_sub_solar)))) (T_mu o r s)
     (under "MU" (sub_observ strtod call pow o ;+ range strtod call pow r ;+ given s (sub_solar strtod call pow)))).
  { intros o r s. apply at_key. destruct s as [s|]; cbn [given].
    - eapply at_equiv; [apply at_Or; [build|]|].
      + eapply (at_seq _ _ _ _ _ _ o (r, s)); [reflexivity|intros a [b c] E; cbn in E; injection E as -> -> ->; auto|build|apply at_Seq; build].
      + tidy.
    - eapply at_equiv; [build|]. intro ts. unfold or_else at 1, impossible.
      assert (Q : forall ts, (range strtod call pow r ;+ nothing) ts <-> range strtod call pow r ts) by (intro; apply nothing_after).
      rewrite (followed_equiv (sub_observ strtod call pow o) (sub_observ strtod call pow o) _ _ ltac:(tauto) Q). tauto. }
  assert (MU0 : forall o s, at_ (key "MU0" (Or (Val (T_mu0 None) g_sub_solar)
                     (seq (fun o r => T_mu0 (Some (o, fst r)) (snd r)) g_sub_observ (Seq g_range g_sub_solar)))) (T_mu0 o s)
     (under "MU0" (given o (fun x => sub_observ strtod call pow (fst x) ;+ range strtod call pow (snd x)) ;+ sub_solar strtod call pow s))).
  { intros o s. apply at_key. destruct o as [[o r]|]; cbn [given fst snd].
    - eapply at_equiv; [apply at_Or; [build|]|].
      + eapply (at_seq _ _ _ _ _ _ o (r, s)); [reflexivity|intros a [b c] E; cbn in E; injection E as -> -> ->; auto|build|apply at_Seq; build].
      + intro ts. rewrite followed_assoc. unfold or_else at 1, impossible. cbn [fst snd]. tauto.
    - eapply at_equiv; [build|]. intro ts. rewrite nothing_before. unfold or_else at 1, impossible. tauto. }
  assert (PH : forall o r s, at_ (key "PHASE" (seq (fun o r => T_phase o (fst r) (snd r)) g_sub_observ (Seq g_range g_sub_solar))) (T_phase o r s)
     (under "PHASE" (sub_observ strtod call pow o ;+ range strtod call pow r ;+ sub_solar strtod call pow s))).
  { intros o r s. apply at_key.
    eapply (at_seq _ _ _ _ _ _ o (r, s)); [reflexivity|intros a [b c] E; cbn in E; injection E as -> -> ->; auto|build|apply at_Seq; build]. }
  assert (IM : forall i l, at_ (seq T_image g_image (Many g_image)) (T_image i l) (each (image strtod call pow) (i :: l))).
  { intros i l. eapply at_seq; [reflexivity|intros a b E; injection E as -> ->; auto|build|apply at_Many; intro; build]. }
  assert (NO : forall A k (g : bnf A) b, (forall ts, ~ derives g b ts) -> at_ (key k g) b impossible).
  { intros A k g b H ts S. unfold key. rewrite d_Val. split; [|intros []].
    intros ([[] [[] x]] & -> & u & v & _ & _ & w & z & _ & _ & D). exact (H z D). }
  assert (NMU : forall t, (forall o r s, t <> T_mu o r s) -> at_ (key "MU" (Or (seq (fun o r => T_mu o r None) g_sub_observ g_range)
                    (seq (fun o r => T_mu o (fst r) (Some (snd r))) g_sub_observ (Seq g_range g_sub_solar)))) t impossible).
  { intros x H. apply NO. intros ts D. rewrite d_Or, !d_seq in D. destruct D as [(a & b & u & v & E & _)|(a & b & u & v & E & _)]; exact (H _ _ _ E). }
  assert (NMU0 : forall t, (forall o s, t <> T_mu0 o s) -> at_ (key "MU0" (Or (Val (T_mu0 None) g_sub_solar)
                     (seq (fun o r => T_mu0 (Some (o, fst r)) (snd r)) g_sub_observ (Seq g_range g_sub_solar)))) t impossible).
  { intros x H. apply NO. intros ts D. rewrite d_Or, d_Val, d_seq in D. destruct D as [(a & E & _)|(a & b & u & v & E & _)]; exact (H _ _ E). }
  assert (NPH : forall t, (forall o r s, t <> T_phase o r s) -> at_ (key "PHASE" (seq (fun o r => T_phase o (fst r) (snd r)) g_sub_observ (Seq g_range g_sub_solar))) t impossible).
  { intros x H. apply NO. intros ts D. rewrite d_seq in D. destruct D as (a & b & u & v & E & _); exact (H _ _ _ E). }
  assert (NLA : forall t, (forall k, t <> T_latitude k) -> at_ (key "LATITUDE" (Val T_latitude g_lat_type)) t impossible).
  { intros x H. apply NO. intros ts D. rewrite d_Val in D. destruct D as (a & E & _); exact (H _ E). }
  unfold g_plane_type, content.
  destruct t; (eapply at_equiv; [apply at_Or; [first [apply IM|build]|]; apply at_Or; [first [apply MU|apply NMU; discriminate]|];
    apply at_Or; [first [apply MU0|apply NMU0; discriminate]|]; apply at_Or; [first [apply PH|apply NPH; discriminate]|];
    apply at_Or; [first [apply NLA; discriminate|build]|build]|tidy]).
Qed.
Hint Resolve plane_type_at : writing.
Lemma plane_at p : at_ g_plane p (plane strtod call pow p).
Proof.
  destruct p as [n r t]. unfold plane. cbn [pe_number pe_range pe_type].
  eapply (at_seq _ _ _ _ _ _ n (r, t)); [reflexivity|intros a [b c] E; cbn in E; injection E as -> -> ->; auto| |apply at_Seq; build].
  apply at_key, at_opt. intros a _. build.
Qed.
Hint Resolve plane_at : writing.

(** Projections *)
Lemma or_no_l (d : doc) ts : (impossible // d) ts <-> d ts.
Proof. unfold or_else, impossible. tauto. Qed.
Lemma or_no_r (d : doc) ts : (d // impossible) ts <-> d ts.
Proof. unfold or_else, impossible. tauto. Qed.
Lemma ortho_optsub_at o : at_ g_ortho_optsub o (ortho_options_written strtod call pow o).
Proof.
  intros ts S. unfold g_ortho_optsub. rewrite !d_Or, !d_Val, !d_seq.
  assert (N : forall (a : doc), (a ;+ nothing) ts <-> a ts) by (intro; apply nothing_after).
  assert (A := fun x us (U : shaped us) => sub_observ_at x us U). assert (B := fun x us (U : shaped us) => position_angle_at x us U).
  assert (C := fun x us (U : shaped us) => km_per_pixel_at x us U). assert (D := fun x us (U : shaped us) => centers_at x us U).
  split.
  - intros [(x & -> & E)|[(x & -> & E)|[(x & -> & E)|[(x & -> & E)|[(x & -> & E)|[(x & y & u & v & -> & -> & E & F)|
      [(x & y & u & v & -> & -> & E & F)|(x & y & u & v & -> & -> & E & F)]]]]]]]; cbn [ortho_options_written oo_sub_observ oo_position_angle oo_km_per_pixel oo_centers given].
    + apply nothing_before, nothing_before, nothing_before. exact E.
    + apply A in E; [|exact S]. exists ts, []. split; [now rewrite app_nil_r|split; [exact E|]]. apply nothing_before, nothing_before. reflexivity.
    + apply B in E; [|exact S]. apply nothing_before. exists ts, []. split; [now rewrite app_nil_r|split; [exact E|]]. apply nothing_before. reflexivity.
    + apply C in E; [|exact S]. apply nothing_before, nothing_before. exists ts, []. split; [now rewrite app_nil_r|split; [exact E|]]. reflexivity.
    + apply D in E; [|exact S]. apply nothing_before, nothing_before, nothing_before. exact E.
    + apply shaped_app in S. destruct S as [SU SV]. apply A in E; [|exact SU]. apply B in F; [|exact SV].
      exists u, v. split; [reflexivity|split; [exact E|]]. exists v, []. split; [now rewrite app_nil_r|split; [exact F|]]. apply nothing_before. reflexivity.
    + destruct F as (v1 & v2 & -> & F & G). apply shaped_app in S. destruct S as [SU SV]. apply shaped_app in SV. destruct SV as [SV SW].
      apply A in E; [|exact SU]. apply B in F; [|exact SV]. apply C in G; [|exact SW].
      exists u, (v1 ++ v2). split; [reflexivity|split; [exact E|]]. exists v1, v2. split; [reflexivity|split; [exact F|]]. apply nothing_after. exact G.
    + destruct F as (v1 & v2 & -> & F & G). destruct G as (v3 & v4 & -> & G & H). apply shaped_app in S. destruct S as [SU SV]. apply shaped_app in SV. destruct SV as [SV SW].
      apply shaped_app in SW. destruct SW as [SW SX].
      apply A in E; [|exact SU]. apply B in F; [|exact SV]. apply C in G; [|exact SW]. apply D in H; [|exact SX].
      exists u, (v1 ++ v3 ++ v4). split; [reflexivity|split; [exact E|]]. exists v1, (v3 ++ v4). split; [reflexivity|split; [exact F|]].
      exists v3, v4. auto.
  - destruct o as [[o|] [p|] [k|] [c|]]; unfold ortho_options_written; cbn [oo_sub_observ oo_position_angle oo_km_per_pixel oo_centers given]; intro W; try contradiction W.
    + do 7 right. destruct W as (u & v & -> & E & v1 & v2 & -> & F & v3 & v4 & -> & G & H).
      apply shaped_app in S. destruct S as [SU SV]. apply shaped_app in SV. destruct SV as [SV SW]. apply shaped_app in SW. destruct SW as [SW SX].
      exists o, (p, (k, c)), u, (v1 ++ v3 ++ v4). split; [reflexivity|split; [reflexivity|split; [now apply A|]]].
      exists v1, (v3 ++ v4). split; [reflexivity|split; [now apply B|]]. exists v3, v4. split; [reflexivity|split; [now apply C|now apply D]].
    + do 6 right. left. destruct W as (u & v & -> & E & v1 & v2 & -> & F & v3 & v4 & -> & G & H). red in H. subst v4. rewrite app_nil_r in *.
      apply shaped_app in S. destruct S as [SU SV]. apply shaped_app in SV. destruct SV as [SV SW].
      exists o, (p, k), u, (v1 ++ v3). split; [reflexivity|split; [reflexivity|split; [now apply A|]]].
      exists v1, v3. split; [reflexivity|split; [now apply B|now apply C]].
    + do 5 right. left. destruct W as (u & v & -> & E & v1 & v2 & -> & F & v3 & v4 & -> & G & H). red in G, H. subst v4 v3. rewrite app_nil_r in *.
      apply shaped_app in S. destruct S as [SU SV].
      exists o, p, u, v1. split; [reflexivity|split; [reflexivity|split; [now apply A|now apply B]]].
    + right. left. destruct W as (u & v & -> & E & v1 & v2 & -> & F & v3 & v4 & -> & G & H). red in F, G, H. subst v4 v3 v1. rewrite app_nil_r in *.
      exists o. split; [reflexivity|now apply A].
    + do 2 right. left. destruct W as (u & v & -> & E & v1 & v2 & -> & F & v3 & v4 & -> & G & H). red in E, G, H. subst v4 v3 u. cbn [app] in *. rewrite app_nil_r in *.
      exists p. split; [reflexivity|now apply B].
    + do 3 right. left. destruct W as (u & v & -> & E & v1 & v2 & -> & F & v3 & v4 & -> & G & H). red in E, F, H. subst v4 v1 u. cbn [app] in *. rewrite app_nil_r in *.
      exists k. split; [reflexivity|now apply C].
    + do 4 right. left. destruct W as (u & v & -> & E & v1 & v2 & -> & F & v3 & v4 & -> & G & H). red in E, F, G. subst v3 v1 u. cbn [app] in *.
      exists c. split; [reflexivity|now apply D].
    + left. destruct W as (u & v & -> & E & v1 & v2 & -> & F & v3 & v4 & -> & G & H). red in E, F, G, H. subst. exists tt. split; reflexivity.
Qed.
Hint Resolve ortho_optsub_at : writing.
Lemma mercator_at o : at_ g_mercator (T_mercator o) (given o options).
Proof. eapply at_Val; [reflexivity|intros x E; injection E as ->; reflexivity|]. apply at_opt. intros a _. build. Qed.
Lemma ortho_at o : at_ g_ortho (T_ortho o) (given o (fun x => options (fst x) ;+ ortho_options_written strtod call pow (snd x))).
Proof. eapply at_Val; [reflexivity|intros x E; injection E as ->; reflexivity|]. apply at_opt. intros a _. apply at_Seq; build. Qed.
Lemma p_stereo_at o : at_ g_p_stereo (T_p_stereo o) (given o (fun '(a, north, max) =>
      options a ;+ under "POLE" (TextEntries_Spec.word (if north : bool then "N" else "S")) ;+ given max (fun x => under "MAX_LAT" (latitude strtod call pow x)))).
Proof.
  eapply at_Val; [reflexivity|intros x E; injection E as ->; reflexivity|]. apply at_opt. intros [[a n] m] _.
  eapply (at_seq _ _ _ _ _ _ a (n, m)); [reflexivity|intros b [c d] E; cbn in E; injection E as -> -> ->; auto|build|].
  apply at_Seq; cbn [fst snd].
  - unfold g_pole. apply at_key. destruct n; (eapply at_equiv; [build|tidy]).
  - apply at_opt. intros. build.
Qed.
Lemma latlonrange_at x : at_ g_latlonrange x
  (let lat := given (fst x) (lat_limits strtod call pow) in
   let lon := given (snd x) (lon_limits strtod call pow) in (lat ;+ lon) // (lon ;+ lat)).
Proof.
  intros ts S. unfold g_latlonrange. rewrite !d_Or, !d_Val, !d_seq. unfold or_else. cbv zeta.
  assert (A := fun x us (U : shaped us) => lat_range_at x us U). assert (B := fun x us (U : shaped us) => lon_range_at x us U).
  destruct x as [[a|] [o|]]; cbn [fst snd given]; rewrite ?nothing_before, ?nothing_after.
  - split.
    + intros [(x & E & _)|[(x & E & _)|[(x & E & _)|[(x & y & u & v & E & -> & F & G)|(x & y & u & v & E & -> & F & G)]]]]; try discriminate E;
        injection E as -> ->; apply shaped_app in S; destruct S as [SU SV].
      * left. exists u, v. split; [reflexivity|split; [now apply A|now apply B]].
      * right. exists u, v. split; [reflexivity|split; [now apply B|now apply A]].
    + intros [(u & v & -> & F & G)|(u & v & -> & F & G)]; apply shaped_app in S; destruct S as [SU SV].
      * do 3 right. left. exists a, o, u, v. split; [reflexivity|split; [reflexivity|split; [now apply A|now apply B]]].
      * do 4 right. exists o, a, u, v. split; [reflexivity|split; [reflexivity|split; [now apply B|now apply A]]].
  - split.
    + intros [(x & E & _)|[(x & E & F)|[(x & E & _)|[(x & y & u & v & E & -> & F & G)|(x & y & u & v & E & -> & F & G)]]]]; try discriminate E.
      injection E as ->. left. now apply A.
    + intros [F|F]; right; left; exists a; (split; [reflexivity|now apply A]).
  - split.
    + intros [(x & E & _)|[(x & E & _)|[(x & E & F)|[(x & y & u & v & E & -> & F & G)|(x & y & u & v & E & -> & F & G)]]]]; try discriminate E.
      injection E as ->. left. now apply B.
    + intros [F|F]; right; right; left; exists o; (split; [reflexivity|now apply B]).
  - split.
    + intros [(x & E & F)|[(x & E & _)|[(x & E & F)|[(x & y & u & v & E & -> & F & G)|(x & y & u & v & E & -> & F & G)]]]]; try discriminate E.
      left. exact F.
    + intros [F|F]; left; exists tt; (split; [reflexivity|exact F]).
Qed.
Hint Resolve latlonrange_at : writing.
Lemma simple_c_at o : at_ g_simple_c (T_simple_c o) (given o (fun '(a, k, lat, lon) =>
      options a ;+ given k type_of_latitude ;+
      let lat := given lat (lat_limits strtod call pow) in
      let lon := given lon (lon_limits strtod call pow) in
      (lat ;+ lon) // (lon ;+ lat))).
Proof.
  eapply at_Val; [reflexivity|intros x E; injection E as ->; reflexivity|]. apply at_opt. intros [[[a k] x] y] _.
  eapply (at_seq _ _ _ _ _ _ a (k, (x, y))); [reflexivity|intros b (c & d & e) E; cbn in E; injection E as -> -> -> ->; auto|build|].
  apply at_Seq; cbn [fst snd]; [build|apply latlonrange_at].
Qed.
Lemma type_at A k (g : bnf A) (a : A) d : at_ g a d -> at_ (key "TYPE" (seq (fun _ p => p) (Tok k) g)) a (under "TYPE" (TextEntries_Spec.word k) ;+ d).
Proof.
  intro H. eapply at_equiv; [apply at_key; eapply (at_seq _ _ _ _ _ _ tt a); [reflexivity|intros [] b ->; auto|apply at_Tok|exact H]|].
  intro ts. unfold under. rewrite !followed_assoc. apply followed_equiv; [tauto|]. intro us. rewrite !followed_assoc. tauto.
Qed.
Lemma key_or A k (g h : bnf A) a ts : derives (key k (Or g h)) a ts <-> derives (key k g) a ts \/ derives (key k h) a ts.
Proof.
  unfold key. rewrite !d_Val. split.
  - intros (([], ([], x)) & E & u & v & -> & U & w & z & -> & W & [Z|Z]); [left|right]; exists (tt, (tt, x)); (split; [exact E|]);
      exists u, (w ++ z); (split; [reflexivity|split; [exact U|]]); exists w, z; auto.
  - intros [(([], ([], x)) & E & u & v & -> & U & w & z & -> & W & Z)|(([], ([], x)) & E & u & v & -> & U & w & z & -> & W & Z)];
      exists (tt, (tt, x)); (split; [exact E|]); exists u, (w ++ z); (split; [reflexivity|split; [exact U|]]); exists w, z;
      (split; [reflexivity|split; [exact W|]]); [now left|now right].
Qed.
Lemma type_no k A (f : A -> projection_entry) (g : bnf A) a ts : (forall x, a <> f x) ->
  ~ derives (key "TYPE" (seq (fun (_ : unit) p => p) (Tok k) (Val f g))) a ts.
Proof.
  intros H. unfold key. rewrite d_Val. intros (([], ([], x)) & E & u & v & -> & U & w & z & -> & W & Z). cbn [fst snd] in E, Z. subst x.
  apply d_seq in Z. destruct Z as ([] & p & u' & v' & -> & -> & _ & Z). apply d_Val in Z. destruct Z as (x & E & _). exact (H x E).
Qed.
Lemma projection_at p : at_ g_projection p (projection_written strtod call pow p).
Proof.
  intros ts S. unfold g_projection. rewrite !key_or. destruct p as [o|o|o|o]; unfold projection_written.
  - rewrite <- (type_at _ "MERCATOR" _ _ _ (mercator_at o) ts S). split; [|tauto].
    intros [H|[H|[H|H]]]; [exact H|exfalso..]; revert H; apply type_no; discriminate.
  - rewrite <- (type_at _ "ORTHO" _ _ _ (ortho_at o) ts S). split; [|tauto].
    intros [H|[H|[H|H]]]; [|exact H|..]; exfalso; revert H; apply type_no; discriminate.
  - rewrite <- (type_at _ "P_STEREO" _ _ _ (p_stereo_at o) ts S). split; [|tauto].
    intros [H|[H|[H|H]]]; [| |exact H|]; exfalso; revert H; apply type_no; discriminate.
  - rewrite <- (type_at _ "SIMPLE_C" _ _ _ (simple_c_at o) ts S). split; [|tauto].
    intros [H|[H|[H|H]]]; [| | |exact H]; exfalso; revert H; apply type_no; discriminate.
Qed.
Hint Resolve projection_at : writing.

(** Maps and files *)
Lemma map_at m : at_ g_map m (map_written strtod call pow m).
Proof.
  destruct m as [file author origin comm xcomm name radii prograde off sc type blank grid proj planes samples lines p ps].
  apply (at_Val _ _ _ _ (file, (author, (origin, (comm, (xcomm, ((name, (radii, prograde)), (off, (sc, (type, (blank, (grid,
              (proj, (planes, (samples, (lines, (p, ps))))))))))))))))).
  - reflexivity.
  - intros (a1 & a2 & a3 & a4 & a5 & (a6 & a7 & a8) & a9 & b1 & b2 & b3 & b4 & b5 & b6 & b7 & b8 & b9 & c) E.
    injection E as -> -> -> -> -> -> -> -> -> -> -> -> -> -> -> -> -> -> ->. reflexivity.
  - unfold map_written. cbn [me_file me_author me_origin me_comments me_xcomments me_body me_radii me_prograde me_offset me_scale me_type me_blank
      me_grid me_projection me_planes me_samples me_lines me_plane me_more_planes].
    assert (B : at_ g_body (name, (radii, prograde)) (under "BODY" (line name) ;+ radii_written strtod call pow radii ;+
        under "ROTATION" (TextEntries_Spec.word (if prograde then "PROGRADE" else "RETROGRADE")))).
    { unfold g_body. apply at_Seq; [build|]. apply at_Seq; [build|]. apply at_key. cbn [fst snd]. destruct prograde; (eapply at_equiv; [build|tidy]). }
    do 5 (apply at_Seq; cbn [fst snd]; [try (apply at_opt; intros ? _); try (apply at_Many; intro); build|]).
    eapply at_equiv; [apply at_Seq; cbn [fst snd]; [exact B|]|intro ts; etransitivity; [apply followed_assoc|apply followed_equiv; [tauto|apply followed_assoc]]].
    do 4 (apply at_Seq; cbn [fst snd]; [first [apply data_type_at|apply at_opt; intros ? _; build]|]).
    do 6 (apply at_Seq; cbn [fst snd]; [try (apply at_opt; intros ? _); build|]).
    apply at_Many. intro. build.
Qed.
Hint Resolve map_at : writing.
Lemma file_at t : at_ g_file t (file_written strtod call pow t).
Proof.
  destruct t as [[i r n]|m l].
  - eapply at_equiv; [unfold g_file; apply at_Or; [build|eapply at_Val; [reflexivity|intros x E; injection E as ->; reflexivity|]]|].
    + eapply (at_seq _ _ _ _ _ _ i (r, n)); [reflexivity|intros a [b c] E; cbn in E; injection E as -> -> ->; auto|build|].
      eapply at_seq; [reflexivity|intros a b E; injection E as -> ->; auto|build|build].
    + tidy.
  - eapply at_equiv; [unfold g_file; apply at_Or; [eapply at_seq; [reflexivity|intros a b E; injection E as -> ->; auto|build|apply at_Many; intro; build]|build]|tidy].
Qed.
Theorem reads_written s t : reads_as strtod call pow s t <-> file_written strtod call pow t (file_tokens s).
Proof. apply file_at. apply scan_shaped. Qed.
End Entries.
