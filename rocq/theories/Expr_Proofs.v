(** Proofs about arithmetic expressions. *)
From Coq Require Import List ZArith Bool Ascii String Lia.
From Flocq Require Import BinarySingleNaN.
From Verif Require Import Base Flt Entry_Model Expr_Model Expr_Spec.
Import ListNotations.
Open Scope Z_scope.
#[local] Existing Instance prec53.
#[local] Existing Instance emax53.

Section Parsing.
Variable strtod : text -> option double.
Variable call : string -> double -> double.
Variable pow : double -> double -> double.
Notation step := (step strtod call pow).
Notation steps := (steps strtod call pow).
Notation reduce := (reduce pow).
Notation value := (value strtod call pow).
Notation result := (result pow).
Notation expression := (expression strtod call pow).

Lemma eqb_zero (y : double) : Beqb y (double_of_Z 0) = true <-> zero y.
Proof.
  unfold zero. split.
  - destruct y as [s|s| |s m e H]; intros E.
    + now exists s.
    + destruct s; discriminate.
    + discriminate.
    + destruct s; discriminate.
  - intros [s ->]. destruct s; reflexivity.
Qed.

Lemma binary_result o x y r : binary pow o x y = Parsed r <-> result o x y r.
Proof.
  split.
  - destruct o; cbn [binary]; intros H; try (injection H as <-; constructor).
    destruct (Beqb y (double_of_Z 0)) eqn:E; [discriminate|]. injection H as <-. constructor.
    intros Z. apply eqb_zero in Z. congruence.
  - destruct 1; cbn [binary]; try reflexivity.
    destruct (Beqb y (double_of_Z 0)) eqn:E; [exfalso; now apply H, eqb_zero|reflexivity].
Qed.

Definition klevel (k : kind) : Z := match k with Sum => 2 | Product => 3 | Factor => 4 | Power => 5 | Atom => 6 end.

Definition finish (la : option Z) (st : state) : parsed (table * list frame * double) :=
  pbind (settle st) (fun st =>
  match st_top st with TopExpr v => reduce la (st_frames st) (st_vars st) v | _ => Rejected end).

Lemma steps_app a : forall st b, steps st (a ++ b) = pbind (steps st a) (fun st => steps st b).
Proof.
  induction a as [|t a IH]; intros st b; cbn [app Expr_Model.steps pbind]; [reflexivity|].
  destruct (step st t); cbn [pbind]; auto.
Qed.

Lemma pbind_assoc {A B C} (p : parsed A) (f : A -> parsed B) (g : B -> parsed C) :
  pbind (pbind p f) g = pbind p (fun a => pbind (f a) g).
Proof. destruct p; reflexivity. Qed.

Lemma pbind_ext {A B} (p : parsed A) (f g : A -> parsed B) : (forall a, f a = g a) -> pbind p f = pbind p g.
Proof. intros H. destruct p; cbn; auto. Qed.

Lemma step_op st o : st_top st <> TopNone ->
  step st (TOp o) = pbind (finish (Some (level o)) st) (fun '(vars, fs, v) => Parsed (St vars (FBin v o :: fs) TopNone)).
Proof.
  intros H. unfold finish. rewrite pbind_assoc. cbn [Expr_Model.step].
  destruct (st_top st) eqn:E; [congruence| |]; apply pbind_ext; intros s; destruct (st_top s); reflexivity.
Qed.

Lemma step_close st : step st TClose = pbind (finish None st) (fun '(vars, fs, v) =>
  match fs with
  | FOpen :: r => Parsed (St vars r (TopExpr v))
  | FCall f :: r => Parsed (St vars r (TopExpr (call f v)))
  | _ => Rejected
  end).
Proof.
  unfold finish. rewrite pbind_assoc. cbn [Expr_Model.step]. apply pbind_ext. intros s. destruct (st_top s); reflexivity.
Qed.

Lemma expression_finish m ts : expression m ts =
  pbind (steps (St m [] TopNone) ts) (fun st => pbind (finish None st) (fun '(vars, fs, v) =>
  match fs with [] => Parsed (v, vars) | _ => Rejected end)).
Proof.
  unfold Expr_Model.expression. apply pbind_ext. intros st. unfold finish. rewrite pbind_assoc. apply pbind_ext.
  intros s. destruct (st_top s); reflexivity.
Qed.

(** ** Every sentence is read with its meaning *)

Definition weak (b : bool) (k : kind) (la : option op) : Prop :=
  match la with
  | None => True
  | Some o => b = false /\ (level o < klevel k \/ level o = klevel k /\ level o <> 5)
  end.

Definition roomy (fs : list frame) (k : kind) : Prop :=
  match fs with
  | [] => True
  | FName _ :: _ => False
  | f :: _ => match frame_level f with
              | None => True
              | Some l => forall o, klevel k <= level o -> reduces l (Some (level o)) = false
              end
  end.

Lemma roomy_fresh m fs k : roomy fs k -> fresh (St m fs TopNone) = true.
Proof. unfold roomy, fresh. cbn. destruct fs as [|[] r]; auto; contradiction. Qed.

Lemma roomy_stop fs k o m v : roomy fs k -> klevel k <= level o ->
  reduce (Some (level o)) fs m v = Parsed (m, fs, v).
Proof.
  intros R L. destruct fs as [|f r]; [reflexivity|]. cbn [Expr_Model.reduce]. unfold roomy in R.
  destruct f; cbn [frame_level] in *; try reflexivity; rewrite R by exact L; reflexivity.
Qed.

Lemma roomy_mono fs k k' : roomy fs k -> klevel k <= klevel k' -> roomy fs k'.
Proof.
  unfold roomy. intros R L. destruct fs as [|f r]; [exact I|].
  destruct f; cbn [frame_level] in *; auto; intros o' H; apply R; lia.
Qed.

Lemma weak_up b k k' la : weak b k la -> klevel k <= klevel k' -> weak b k' la.
Proof. unfold weak. destruct la; [|auto]. intros [-> H] L. split; [reflexivity|lia]. Qed.

Lemma reduces_weak b k la : weak b k la -> klevel k <= 5 -> reduces (klevel k) (option_map level la) = true.
Proof.
  unfold weak, reduces. destruct la as [o|]; [|reflexivity]. intros [_ [H|[H N]]] L; cbn [option_map].
  - rewrite (proj2 (Z.ltb_lt _ _) H). reflexivity.
  - rewrite <- H, Z.ltb_irrefl, Z.eqb_refl. destruct o; cbn in *; try reflexivity; lia.
Qed.

Lemma reads b k e ts : sentence b k e ts -> forall m v m' fs, value m e v m' -> roomy fs k ->
  exists st, steps (St m fs TopNone) ts = Parsed st /\ st_top st <> TopNone /\
    forall la, weak b k la -> finish (option_map level la) st = reduce (option_map level la) fs m' v.
Proof.
  assert (BIN : forall b k kl kr o x y tx ty,
    (forall m v m' fs, value m x v m' -> roomy fs kl -> exists st, steps (St m fs TopNone) tx = Parsed st /\
       st_top st <> TopNone /\ forall la, weak false kl la -> finish (option_map level la) st = reduce (option_map level la) fs m' v) ->
    (forall m v m' fs, value m y v m' -> roomy fs kr -> exists st, steps (St m fs TopNone) ty = Parsed st /\
       st_top st <> TopNone /\ forall la, weak b kr la -> finish (option_map level la) st = reduce (option_map level la) fs m' v) ->
    klevel k = level o -> klevel k <= klevel kl -> weak false kl (Some o) ->
    (forall o', klevel kr <= level o' -> reduces (level o) (Some (level o')) = false) ->
    (forall la, weak b k la -> weak b kr la) ->
    forall m v m' fs, value m (EBin o x y) v m' -> roomy fs k ->
    exists st, steps (St m fs TopNone) (tx ++ TOp o :: ty) = Parsed st /\ st_top st <> TopNone /\
    forall la, weak b k la -> finish (option_map level la) st = reduce (option_map level la) fs m' v).
  { intros b0 k0 kl kr o x y tx ty IHx IHy K L W R M m v m' fs V RM. inversion V; subst.
    match goal with H : value m x ?u ?n, H' : value ?n y ?w m', RR : result o ?u ?w v |- _ =>
      rename H into Vx, H' into Vy, RR into RES, u into xv, w into yv, n into mx end.
    destruct (IHx m xv mx fs Vx (roomy_mono _ _ _ RM L)) as (s1 & S1 & T1 & F1).
    specialize (F1 (Some o) W). cbn [option_map] in F1.
    destruct (IHy mx yv m' (FBin xv o :: fs) Vy) as (s2 & S2 & T2 & F2).
    { unfold roomy. cbn [frame_level]. exact R. }
    exists s2. split; [|split; [exact T2|]].
    - rewrite steps_app, S1. cbn [pbind Expr_Model.steps]. rewrite step_op by exact T1. rewrite F1.
      rewrite (roomy_stop fs k0) by (auto; lia). cbn [pbind]. exact S2.
    - intros la WL. rewrite (F2 la (M la WL)). cbn [Expr_Model.reduce frame_level].
      assert (reduces (level o) (option_map level la) = true) as ->.
      { rewrite <- K. apply (reduces_weak b0); [exact WL|]. rewrite K. destruct o; cbn; lia. }
      cbn [complete]. apply binary_result in RES. rewrite RES. reflexivity. }
  induction 1.
  - apply (BIN b Sum Sum Product o x y tx ty IHsentence1 IHsentence2).
    + destruct H as [-> | ->]; reflexivity.
    + lia.
    + split; [reflexivity|]. destruct H as [-> | ->]; cbn; lia.
    + intros o'. destruct H as [-> | ->]; destruct o'; cbn; lia || auto.
    + intros la W. eapply weak_up; [exact W|cbn; lia].
  - intros m v m' fs V R. destruct (IHsentence m v m' fs V) as (st & S & T & F).
    { eapply roomy_mono; [exact R|cbn; lia]. }
    exists st. split; [exact S|]. split; [exact T|]. intros la W. apply F. eapply weak_up; [exact W|cbn; lia].
  - apply (BIN b Product Product Factor o x y tx ty IHsentence1 IHsentence2).
    + destruct H as [-> | ->]; reflexivity.
    + lia.
    + split; [reflexivity|]. destruct H as [-> | ->]; cbn; lia.
    + intros o'. destruct H as [-> | ->]; destruct o'; cbn; lia || auto.
    + intros la W. eapply weak_up; [exact W|cbn; lia].
  - intros m v m' fs V R. destruct (IHsentence m v m' fs V) as (st & S & T & F).
    { eapply roomy_mono; [exact R|cbn; lia]. }
    exists st. split; [exact S|]. split; [exact T|]. intros la W. apply F. eapply weak_up; [exact W|cbn; lia].
  - intros m v m' fs V R. inversion V; subst.
    match goal with H : value m e ?u m' |- _ => destruct (IHsentence m u m' (FNeg :: fs) H) as (st & S & T & F) end.
    { unfold roomy. cbn. intros o; destruct o; cbn; lia || auto. }
    exists st. split; [|split; [exact T|]].
    + cbn [Expr_Model.steps Expr_Model.step st_top]. rewrite (roomy_fresh m fs Factor R). cbn [pbind st_vars st_frames]. exact S.
    + intros la W. rewrite (F la W). cbn [Expr_Model.reduce frame_level].
      change level_neg with (klevel Factor). rewrite (reduces_weak b Factor la W) by (cbn; lia). reflexivity.
  - intros m v m' fs V R. destruct (IHsentence m v m' fs V) as (st & S & T & F).
    { eapply roomy_mono; [exact R|cbn; lia]. }
    exists st. split; [exact S|]. split; [exact T|]. intros la W. apply F. eapply weak_up; [exact W|cbn; lia].
  - apply (BIN b Power Atom Factor OpPow x y tx ty IHsentence1 IHsentence2).
    + reflexivity.
    + cbn; lia.
    + split; [reflexivity|]. cbn; lia.
    + intros o'. destruct o'; cbn; lia || auto.
    + intros la W. destruct la as [o|]; [|exact I]. destruct W as [-> W]. split; [reflexivity|].
      destruct o; cbn in *; lia.
  - intros m v m' fs V R. destruct (IHsentence m v m' fs V) as (st & S & T & F).
    { eapply roomy_mono; [exact R|cbn; lia]. }
    exists st. split; [exact S|]. split; [exact T|]. intros la W. apply F. eapply weak_up; [exact W|cbn; lia].
  - intros m v m' fs V R. inversion V; subst.
    exists (St m' fs (TopExpr v)). split; [|split; [cbn; congruence|reflexivity]].
    cbn [Expr_Model.steps Expr_Model.step]. rewrite (roomy_fresh m' fs Atom R).
    match goal with H : strtod s = Some v |- _ => rewrite H end. reflexivity.
  - intros m v m' fs V R. inversion V; subst.
    exists (St m' fs (TopVar x)). split; [|split; [cbn; congruence|]].
    + cbn [Expr_Model.steps Expr_Model.step]. rewrite (roomy_fresh m' fs Atom R). reflexivity.
    + intros la _. unfold finish, settle. cbn [st_top st_vars st_frames].
      match goal with H : getsym m' x = Some (Var v) |- _ => rewrite H end. reflexivity.
  - intros m v m' fs V R. destruct (IHsentence m v m' (FOpen :: fs) V I) as (st & S & T & F).
    specialize (F None I). cbn [option_map] in F.
    exists (St m' fs (TopExpr v)). split; [|split; [cbn; congruence|reflexivity]].
    cbn [Expr_Model.steps].
    assert (step (St m fs TopNone) TOpen = Parsed (St m (FOpen :: fs) TopNone)) as ->.
    { cbn [Expr_Model.step st_top st_frames st_vars]. destruct fs as [|[] r]; auto; contradiction. }
    cbn [pbind]. rewrite steps_app, S. cbn [pbind Expr_Model.steps]. rewrite step_close, F. reflexivity.
  - intros m v m' fs V R. inversion V; subst.
    match goal with H : value m e ?u m' |- _ => destruct (IHsentence m u m' (FCall f :: fs) H I) as (st & S & T & F);
      exists (St m' fs (TopExpr (call f u))) end.
    specialize (F None I). cbn [option_map] in F.
    split; [|split; [cbn; congruence|reflexivity]].
    cbn [Expr_Model.steps Expr_Model.step]. rewrite (roomy_fresh m fs Atom R). cbn [pbind st_vars st_frames st_top].
    rewrite steps_app, S. cbn [pbind Expr_Model.steps]. rewrite step_close, F. reflexivity.
  - intros m v m' fs V R. inversion V; subst.
    match goal with H : value m e v ?n |- _ => destruct (IHsentence m v n (FAssign x :: fs) H) as (st & S & T & F) end.
    { unfold roomy. cbn. intros o; destruct o; cbn; auto. }
    exists st. split; [|split; [exact T|]].
    + cbn [Expr_Model.steps Expr_Model.step]. rewrite (roomy_fresh m fs Atom R). cbn [pbind st_vars st_frames st_top]. exact S.
    + intros la W. destruct la as [o|]; [destruct W; discriminate|]. rewrite (F None I). reflexivity.
Qed.

(** ** Whatever is accepted is a sentence with the meaning computed *)

Definition operand (f : frame) (k : kind) : Prop :=
  match f with
  | FBin _ OpAdd | FBin _ OpSub => klevel Product <= klevel k
  | FBin _ _ | FNeg => klevel Factor <= klevel k
  | _ => True
  end.
Definition fits (fs : list frame) (k : kind) : Prop := match fs with f :: _ => operand f k | [] => True end.
Definition left_kind (o : op) : kind := match o with OpAdd | OpSub => Sum | OpMul | OpDiv => Product | OpPow => Atom end.
Definition op_kind (o : op) : kind := match o with OpAdd | OpSub => Sum | OpMul | OpDiv => Product | OpPow => Power end.

(** The frames, innermost first, and the tokens they were made from. *)
Inductive spells (m0 : table) : list frame -> list token -> table -> Prop :=
| f_nil : spells m0 [] [] m0
| f_bin fs ts m a ta x m' o : spells m0 fs ts m -> sentence false (left_kind o) a ta -> value m a x m' ->
    fits fs (op_kind o) -> spells m0 (FBin x o :: fs) (ts ++ ta ++ [TOp o]) m'
| f_neg fs ts m : spells m0 fs ts m -> spells m0 (FNeg :: fs) (ts ++ [TOp OpSub]) m
| f_assign fs ts m x : spells m0 fs ts m -> spells m0 (FAssign x :: fs) (ts ++ [TVar x; TEquals]) m
| f_open fs ts m : spells m0 fs ts m -> spells m0 (FOpen :: fs) (ts ++ [TOpen]) m
| f_name fs ts m f : spells m0 fs ts m -> spells m0 (FName f :: fs) (ts ++ [TFun f]) m
| f_call fs ts m f : spells m0 fs ts m -> spells m0 (FCall f :: fs) (ts ++ [TFun f; TOpen]) m.

Lemma sentence_lower b k e ts : sentence b k e ts -> forall k', klevel k' <= klevel k -> sentence b k' e ts.
Proof.
  intros H k' L. destruct k, k'; cbn in L; try lia; auto using s_sum1, s_product1, s_factor1, s_power1.
Qed.

Lemma fits_factor fs : fits fs Factor.
Proof. destruct fs as [|[x []| | | | |] r]; cbn; auto; lia. Qed.
Lemma fits_atom fs : fits fs Atom.
Proof. destruct fs as [|[x []| | | | |] r]; cbn; auto; lia. Qed.

Lemma reduce_sound m0 la : forall fs ts m, spells m0 fs ts m -> forall b k e te v m' m'' fs' v',
  sentence b k e te -> value m e v m' -> fits fs k ->
  (forall o, la = Some o -> b = false /\ klevel (left_kind o) <= klevel k) ->
  reduce (option_map level la) fs m' v = Parsed (m'', fs', v') ->
  exists ts1 m1 b' k' e' te',
    spells m0 fs' ts1 m1 /\ sentence b' k' e' te' /\ value m1 e' v' m'' /\ fits fs' k' /\ ts ++ te = ts1 ++ te' /\
    (forall o, la = Some o -> b' = false /\ klevel (left_kind o) <= klevel k') /\
    match fs' with
    | [] => True
    | f :: _ => match frame_level f with None => True | Some l => reduces l (option_map level la) = false end
    end.
Proof.
  induction 1 as [|fs ts m a ta x mx o H IH Sa Va Fo|fs ts m H IH|fs ts m x H IH|fs ts m H IH|fs ts m f H IH|fs ts m f H IH];
    intros b k e te v m' m'' fs' v' Se Ve Fk Hla R; cbn [Expr_Model.reduce frame_level] in R.
  - injection R as <- <- <-. exists [], m0, b, k, e, te. (split; [|split; [|split; [|split; [|split; [|split]]]]]); eauto; try (cbn [frame_level]; now rewrite E).
    { constructor. } 
  - destruct (reduces (level o) (option_map level la)) eqn:E.
    + cbn [complete] in R. destruct (binary pow o x v) as [r| |] eqn:B; cbn [pbind] in R; try discriminate.
      apply binary_result in B.
      assert (V' : value m (EBin o a e) r m') by (econstructor; eauto).
      assert (S' : sentence b (op_kind o) (EBin o a e) (ta ++ TOp o :: te)).
      { destruct o; cbn [fits operand left_kind op_kind] in *.
        - apply s_sum; auto. eapply sentence_lower; eauto.
        - apply s_sum; auto. eapply sentence_lower; eauto.
        - apply s_product; auto. eapply sentence_lower; eauto.
        - apply s_product; auto. eapply sentence_lower; eauto.
        - apply s_pow; auto. eapply sentence_lower; eauto. }
      assert (Hla' : forall o', la = Some o' -> b = false /\ klevel (left_kind o') <= klevel (op_kind o)).
      { intros o' ->. destruct (Hla o' eq_refl) as [-> _]. split; [reflexivity|].
        destruct o, o'; cbn in E; try discriminate; cbn; lia. }
      destruct (IH b (op_kind o) (EBin o a e) (ta ++ TOp o :: te) r m' m'' fs' v' S' V' Fo Hla' R)
        as (ts1 & m1 & b' & k' & e' & te' & Q1 & Q2 & Q3 & Q4 & Q5 & Q6).
      exists ts1, m1, b', k', e', te'. (split; [|split; [|split; [|split; [|split; [|exact Q6]]]]]); eauto.
      rewrite <- Q5, <- !app_assoc. reflexivity.
    + injection R as <- <- <-. exists (ts ++ ta ++ [TOp o]), mx, b, k, e, te. (split; [|split; [|split; [|split; [|split; [|split]]]]]); eauto; try (cbn [frame_level]; now rewrite E). { econstructor; eauto. }
  - destruct (reduces level_neg (option_map level la)) eqn:E.
    + cbn [complete pbind] in R.
      assert (V' : value m (ENeg e) (Bopp v) m') by (econstructor; eauto).
      assert (S' : sentence b Factor (ENeg e) (TOp OpSub :: te)).
      { apply s_neg. eapply sentence_lower; eauto. }
      assert (Hla' : forall o', la = Some o' -> b = false /\ klevel (left_kind o') <= klevel Factor).
      { intros o' ->. destruct (Hla o' eq_refl) as [-> _]. split; [reflexivity|].
        destruct o'; cbn in E; try discriminate; cbn; lia. }
      destruct (IH b Factor (ENeg e) (TOp OpSub :: te) (Bopp v) m' m'' fs' v' S' V' (fits_factor fs) Hla' R)
        as (ts1 & m1 & b' & k' & e' & te' & Q1 & Q2 & Q3 & Q4 & Q5 & Q6).
      exists ts1, m1, b', k', e', te'. (split; [|split; [|split; [|split; [|split; [|exact Q6]]]]]); eauto.
      rewrite <- Q5, <- !app_assoc. reflexivity.
    + injection R as <- <- <-. exists (ts ++ [TOp OpSub]), m, b, k, e, te. (split; [|split; [|split; [|split; [|split; [|split]]]]]); eauto; try (cbn [frame_level]; now rewrite E). { econstructor; eauto. }
  - destruct (reduces level_equals (option_map level la)) eqn:E.
    + cbn [complete pbind] in R.
      assert (V' : value m (EAssign x e) v (assign m' x v)) by (econstructor; eauto).
      assert (S' : sentence true Atom (EAssign x e) (TVar x :: TEquals :: te)).
      { eapply s_assign. eapply sentence_lower; [exact Se|]. destruct k; cbn; lia. }
      assert (la = None) as ->.
      { destruct la as [[]|]; auto; discriminate. }
      destruct (IH true Atom (EAssign x e) (TVar x :: TEquals :: te) v (assign m' x v) m'' fs' v' S' V' (fits_atom fs) ltac:(discriminate) R)
        as (ts1 & m1 & b' & k' & e' & te' & Q1 & Q2 & Q3 & Q4 & Q5 & Q6).
      exists ts1, m1, b', k', e', te'. (split; [|split; [|split; [|split; [|split; [|exact Q6]]]]]); eauto.
      rewrite <- Q5, <- !app_assoc. reflexivity.
    + injection R as <- <- <-. exists (ts ++ [TVar x; TEquals]), m, b, k, e, te. (split; [|split; [|split; [|split; [|split; [|split]]]]]); eauto; try (cbn [frame_level]; now rewrite E). { econstructor; eauto. }
  - injection R as <- <- <-. exists (ts ++ [TOpen]), m, b, k, e, te. (split; [|split; [|split; [|split; [|split; [|split]]]]]); eauto; try (cbn [frame_level]; now rewrite E). { econstructor; eauto. }
  - injection R as <- <- <-. exists (ts ++ [TFun f]), m, b, k, e, te. (split; [|split; [|split; [|split; [|split; [|split]]]]]); eauto; try (cbn [frame_level]; now rewrite E). { econstructor; eauto. }
  - injection R as <- <- <-. exists (ts ++ [TFun f; TOpen]), m, b, k, e, te. (split; [|split; [|split; [|split; [|split; [|split]]]]]); eauto; try (cbn [frame_level]; now rewrite E). { econstructor; eauto. }
Qed.

(** A state and the tokens read so far. *)
Definition reached (m0 : table) (st : state) (ts : list token) : Prop :=
  match st_top st with
  | TopNone => spells m0 (st_frames st) ts (st_vars st)
  | TopVar x => exists ts0, ts = ts0 ++ [TVar x] /\ spells m0 (st_frames st) ts0 (st_vars st)
  | TopExpr v => exists ts0 m e te, ts = ts0 ++ te /\ spells m0 (st_frames st) ts0 m /\
                 sentence false Atom e te /\ value m e v (st_vars st)
  end.

Lemma settle_sound m0 st ts st' : reached m0 st ts -> settle st = Parsed st' -> st_top st' <> TopNone ->
  exists v ts0 m e te, st_top st' = TopExpr v /\ ts = ts0 ++ te /\ spells m0 (st_frames st') ts0 m /\
    sentence false Atom e te /\ value m e v (st_vars st').
Proof.
  unfold reached, settle. destruct (st_top st) as [|x|v] eqn:T.
  - intros _ H N. injection H as <-. congruence.
  - intros (ts0 & -> & S) H _. destruct (getsym (st_vars st) x) as [[f|v]|] eqn:G; try discriminate.
    injection H as <-. cbn. exists v, ts0, (st_vars st), (EVar x), [TVar x]. repeat split; auto; constructor; auto.
  - intros (ts0 & m & e & te & -> & S & Se & V) H _. injection H as <-. exists v, ts0, m, e, te. auto.
Qed.

Lemma finish_sound m0 la st ts m'' fs' v' : reached m0 st ts ->
  finish (option_map level la) st = Parsed (m'', fs', v') ->
  exists ts1 m1 b' k' e' te',
    spells m0 fs' ts1 m1 /\ sentence b' k' e' te' /\ value m1 e' v' m'' /\ fits fs' k' /\ ts = ts1 ++ te' /\
    (forall o, la = Some o -> b' = false /\ klevel (left_kind o) <= klevel k') /\
    match fs' with
    | [] => True
    | f :: _ => match frame_level f with None => True | Some l => reduces l (option_map level la) = false end
    end.
Proof.
  intros RE H. unfold finish in H. destruct (settle st) as [st'| |] eqn:S; cbn [pbind] in H; try discriminate.
  destruct (st_top st') as [|x|v] eqn:T; try discriminate.
  destruct (settle_sound m0 st ts st' RE S ltac:(congruence)) as (w & ts0 & m & e & te & T' & -> & SP & SE & VA).
  rewrite T in T'. injection T' as <-.
  apply (reduce_sound m0 la (st_frames st') ts0 m SP false Atom e te v (st_vars st') m'' fs' v' SE VA (fits_atom _)); auto.
  intros o _. split; [reflexivity|]. destruct o; cbn; lia.
Qed.

Lemma step_sound m0 st ts t st' : reached m0 st ts -> step st t = Parsed st' -> reached m0 st' (ts ++ [t]).
Proof.
  intros RE H. destruct t as [o| | | |s|x|f|s|].
  - destruct (st_top st) eqn:T.
    + cbn [Expr_Model.step] in H. rewrite T in H. destruct o; try discriminate.
      destruct (fresh st) eqn:F; [|discriminate]. injection H as <-.
      unfold reached in *. rewrite T in RE. cbn. now constructor.
    + rewrite step_op in H by congruence.
      destruct (finish (Some (level o)) st) as [[[vars fs] v]| |] eqn:E; cbn [pbind] in H; try discriminate. injection H as <-.
      destruct (finish_sound m0 (Some o) st ts vars fs v RE E) as (ts1 & m1 & b' & k' & e' & te' & Q1 & Q2 & Q3 & Q4 & -> & Q6 & Q7).
      destruct (Q6 o eq_refl) as [-> L]. unfold reached. cbn. rewrite <- app_assoc.
      econstructor; eauto; [eapply sentence_lower; eauto|].
      destruct fs as [|g r]; [exact I|]. cbn. destruct g as [y p| | | | |]; cbn in *; auto; try (destruct p, o); cbn in *; try discriminate; try lia.
      destruct o; cbn in *; try discriminate; lia.
    + rewrite step_op in H by congruence.
      destruct (finish (Some (level o)) st) as [[[vars fs] w]| |] eqn:E; cbn [pbind] in H; try discriminate. injection H as <-.
      destruct (finish_sound m0 (Some o) st ts vars fs w RE E) as (ts1 & m1 & b' & k' & e' & te' & Q1 & Q2 & Q3 & Q4 & -> & Q6 & Q7).
      destruct (Q6 o eq_refl) as [-> L]. unfold reached. cbn. rewrite <- app_assoc.
      econstructor; eauto; [eapply sentence_lower; eauto|].
      destruct fs as [|g r]; [exact I|]. cbn. destruct g as [y p| | | | |]; cbn in *; auto; try (destruct p, o); cbn in *; try discriminate; try lia.
      destruct o; cbn in *; try discriminate; lia.
  - cbn [Expr_Model.step] in H. destruct (st_top st) as [|x|v] eqn:T; try discriminate. injection H as <-.
    unfold reached in *. rewrite T in RE. destruct RE as (ts0 & -> & S). cbn. rewrite <- app_assoc. now constructor.
  - cbn [Expr_Model.step] in H. unfold reached in RE. destruct (st_top st) as [|x|v] eqn:T; try discriminate.
    destruct (st_frames st) as [|g r] eqn:F; [injection H as <-; unfold reached; cbn; now constructor|].
    destruct g; injection H as <-; unfold reached; cbn; try (now constructor).
    inversion RE; subst. rewrite <- app_assoc. now constructor.
  - rewrite step_close in H.
    destruct (finish None st) as [[[vars fs] v]| |] eqn:E; cbn [pbind] in H; try discriminate.
    destruct (finish_sound m0 None st ts vars fs v RE E) as (ts1 & m1 & b' & k' & e' & te' & Q1 & Q2 & Q3 & Q4 & -> & Q6 & Q7).
    assert (S2 : sentence b' Sum e' te') by (eapply sentence_lower; [exact Q2|destruct k'; cbn; lia]).
    destruct fs as [|[] r]; try discriminate; injection H as <-; inversion Q1; subst; unfold reached; cbn [st_top st_frames st_vars].
    + exists ts, m1, e', (TOpen :: te' ++ [TClose]). repeat split; auto; [rewrite <- !app_assoc; reflexivity|].
      eapply s_paren; eauto.
    + exists ts, m1, (ECall f e'), (TFun f :: TOpen :: te' ++ [TClose]). repeat split; auto; [rewrite <- !app_assoc; reflexivity| |].
      * eapply s_call; eauto.
      * now constructor.
  - cbn [Expr_Model.step] in H. destruct (fresh st) eqn:F; [|discriminate]. destruct (strtod s) as [v|] eqn:N; [|discriminate].
    injection H as <-. unfold fresh in F. unfold reached in *. destruct (st_top st); try discriminate. cbn.
    exists ts, (st_vars st), (ENum s), [TNum s]. repeat split; auto; constructor; auto.
  - cbn [Expr_Model.step] in H. destruct (fresh st) eqn:F; [|discriminate]. injection H as <-.
    unfold fresh in F. unfold reached in *. destruct (st_top st); try discriminate. cbn. exists ts. auto.
  - cbn [Expr_Model.step] in H. destruct (fresh st) eqn:F; [|discriminate]. injection H as <-.
    unfold fresh in F. unfold reached in *. destruct (st_top st); try discriminate. cbn. now constructor.
  - discriminate.
  - discriminate.
Qed.

Lemma steps_sound m0 b : forall st a st', reached m0 st a -> steps st b = Parsed st' -> reached m0 st' (a ++ b).
Proof.
  induction b as [|t b IH]; intros st a st' RE H; cbn [Expr_Model.steps] in H.
  - injection H as <-. now rewrite app_nil_r.
  - destruct (step st t) as [s| |] eqn:E; cbn [pbind] in H; try discriminate.
    replace (a ++ t :: b) with ((a ++ [t]) ++ b) by (rewrite <- app_assoc; reflexivity).
    eapply IH; [|exact H]. eapply step_sound; eauto.
Qed.

Theorem expression_meaning m ts v m' :
  expression m ts = Parsed (v, m') <-> exists b e, sentence b Sum e ts /\ value m e v m'.
Proof.
  rewrite expression_finish. split.
  - intros H. destruct (steps (St m [] TopNone) ts) as [st| |] eqn:S; cbn [pbind] in H; try discriminate.
    destruct (finish None st) as [[[vars fs] w]| |] eqn:E; cbn [pbind] in H; try discriminate.
    destruct fs; [|discriminate]. injection H as <- <-.
    assert (RE : reached m st ([] ++ ts)).
    { eapply steps_sound; [|exact S]. unfold reached. cbn. constructor. }
    destruct (finish_sound m None st ts vars [] w RE E) as (ts1 & m1 & b' & k' & e' & te' & Q1 & Q2 & Q3 & Q4 & -> & Q6 & Q7).
    inversion Q1; subst. exists b', e'. split; [|exact Q3]. cbn. eapply sentence_lower; [exact Q2|destruct k'; cbn; lia].
  - intros (b & e & S & V). destruct (reads b Sum e ts S m v m' [] V I) as (st & S1 & _ & F).
    rewrite S1. cbn [pbind]. specialize (F None I). cbn [option_map] in F. rewrite F. reflexivity.
Qed.

Lemma expression_total m ts : (exists v m', expression m ts = Parsed (v, m')) \/ expression m ts = Rejected.
Proof.
  assert (N : forall st t e, step st t <> Thrown e).
  { assert (RD : forall la fs vars v e, reduce la fs vars v <> Thrown e).
    { intros la fs. induction fs as [|f r IH]; intros vars v e; cbn [Expr_Model.reduce]; [discriminate|].
      destruct (frame_level f); [|discriminate]. destruct (reduces _ _); [|discriminate].
      destruct f as [x []| | | | |]; cbn [complete binary pbind]; try apply IH.
      destruct (Beqb v (double_of_Z 0)); cbn [pbind]; [discriminate|apply IH]. }
    assert (FI : forall la st e, finish la st <> Thrown e).
    { intros la st e. unfold finish, settle. destruct (st_top st) as [|x|v] eqn:T; cbn [pbind].
      - rewrite T. discriminate.
      - destruct (getsym _ _) as [[|]|]; cbn [pbind st_top]; try discriminate. apply RD.
      - rewrite T. apply RD. }
    intros st t e. destruct t as [o| | | |s|x|f|s|].
    - destruct (st_top st) eqn:T.
      + cbn [Expr_Model.step]. rewrite T. destruct o; try discriminate. destruct (fresh st); discriminate.
      + rewrite step_op by congruence. pose proof (FI (Some (level o)) st) as X.
        destruct (finish _ st) as [[[? ?] ?]| |e']; cbn [pbind]; try discriminate. intros Y. now apply (X e').
      + rewrite step_op by congruence. pose proof (FI (Some (level o)) st) as X.
        destruct (finish _ st) as [[[? ?] ?]| |e']; cbn [pbind]; try discriminate. intros Y. now apply (X e').
    - cbn. destruct (st_top st); discriminate.
    - cbn. destruct (st_top st), (st_frames st) as [|[] ?]; discriminate.
    - rewrite step_close. pose proof (FI None st) as X.
      destruct (finish _ st) as [[[? l] ?]| |e']; cbn [pbind]; try discriminate; [destruct l as [|[] ?]; discriminate|].
      intros Y. now apply (X e').
    - cbn. destruct (fresh st), (strtod s); discriminate.
    - cbn. destruct (fresh st); discriminate.
    - cbn. destruct (fresh st); discriminate.
    - discriminate.
    - discriminate. }
  rewrite expression_finish.
  assert (NS : forall ts st e, steps st ts <> Thrown e).
  { intros l. induction l as [|t l IH]; intros st e; cbn [Expr_Model.steps]; [discriminate|].
    pose proof (N st t) as X. destruct (step st t) as [s| |e']; cbn [pbind]; try discriminate; [apply IH|]. intros Y. now apply (X e'). }
  pose proof (NS ts (St m [] TopNone)) as X.
  destruct (steps _ ts) as [st| |e']; cbn [pbind]; [|now right|exfalso; now apply (X e')].
  unfold finish, settle.
  assert (RD : forall la fs vars v e, reduce la fs vars v <> Thrown e).
  { intros la fs. induction fs as [|f r IH]; intros vars v e; cbn [Expr_Model.reduce]; [discriminate|].
    destruct (frame_level f); [|discriminate]. destruct (reduces _ _); [|discriminate].
    destruct f as [x []| | | | |]; cbn [complete binary pbind]; try apply IH.
    destruct (Beqb v (double_of_Z 0)); cbn [pbind]; [discriminate|apply IH]. }
  destruct (st_top st) as [|x|v] eqn:T; cbn [pbind].
  - rewrite T. now right.
  - destruct (getsym _ _) as [[|w]|]; cbn [pbind st_top st_frames st_vars]; try (now right).
    pose proof (RD None (st_frames st) (st_vars st) w) as Y.
    destruct (reduce None _ _ _) as [[[? l] ?]| |e']; cbn [pbind]; [destruct l; eauto|now right|exfalso; now apply (Y e')].
  - rewrite T. pose proof (RD None (st_frames st) (st_vars st) v) as Y.
    destruct (reduce None _ _ _) as [[[? l] ?]| |e']; cbn [pbind]; [destruct l; eauto|now right|exfalso; now apply (Y e')].
Qed.
End Parsing.

(** ** Scanner *)

Lemma span_app f d Y : Forall (fun c => f c = true) d -> (match Y with c :: _ => f c = false | [] => True end) ->
  span f (d ++ Y) = List.length d.
Proof.
  induction 1 as [|c d H _ IH]; intros HY; cbn [app span List.length].
  - destruct Y as [|c Y]; [reflexivity|]. cbn. now rewrite HY.
  - now rewrite H, IH.
Qed.

Lemma longest_app a b s best : longest (a ++ b) s best = longest b s (longest a s best).
Proof. revert best. induction a as [|[f x] a IH]; intros best; cbn [app longest]; auto. Qed.
Lemma longest_small rs s best : Forall (fun r => (fst r s <= fst best)%nat) rs -> longest rs s best = best.
Proof.
  induction 1 as [|[f a] rs H _ IH]; [reflexivity|]. cbn [longest fst] in *.
  destruct (Nat.ltb_spec (fst best) (f s)); [lia|exact IH].
Qed.

Definition pre_num : list ((text -> nat) * action) := firstn 22 rules.
Lemma rules_split : rules = pre_num ++ (num_len, Number) ::
  [(word_len, Word); (one (fun c => negb (is_newline c)), Leave TUnmatched); (one is_newline, EndOfLine)].
Proof. reflexivity. Qed.

Lemma digit_cases c : is_digit c = true -> In c (list_ascii_of_string "0123456789").
Proof.
  destruct c as [[] [] [] [] [] [] [] []]; vm_compute; intros H; try discriminate H; intuition.
Qed.

Lemma match_number c s k :
  (is_digit c = true /\ k = 0%nat \/ is_sign c = true /\ k = 1%nat) -> (k < num_len (c :: s))%nat ->
  match_at (c :: s) = (num_len (c :: s), Number).
Proof.
  intros H L. unfold match_at. rewrite rules_split, longest_app.
  assert (P : fst (longest pre_num (c :: s) (O, EndOfLine)) = k /\ is_alpha c = false).
  { destruct H as [[H ->]|[H ->]].
    - apply digit_cases in H. cbn in H. decompose [or] H; subst; try contradiction; split; reflexivity.
    - unfold is_sign in H. apply orb_true_iff in H. destruct H as [H|H]; apply Ascii.eqb_eq in H; subst; split; reflexivity. }
  destruct P as [P A]. destruct (longest pre_num (c :: s) (O, EndOfLine)) as [k' a]. cbn [fst] in P. subst k'.
  cbn [longest fst]. rewrite (proj2 (Nat.ltb_lt _ _) L).
  assert (word_len (c :: s) = O) as -> by (unfold word_len; cbn [span]; now rewrite A).
  assert (O1 : forall f, (one f (c :: s) <= 1)%nat) by (intros f; unfold one; destruct (f c); lia).
  cbn [fst].
  destruct (Nat.ltb_spec (num_len (c :: s)) 0); [lia|]. cbn [fst].
  pose proof (O1 (fun c => negb (is_newline c))) as X1. destruct (Nat.ltb_spec (num_len (c :: s)) (one (fun c => negb (is_newline c)) (c :: s))); [lia|]. cbn [fst].
  pose proof (O1 is_newline) as X2. destruct (Nat.ltb_spec (num_len (c :: s)) (one is_newline (c :: s))); [lia|]. reflexivity.
Qed.

Definition is_num_sign (sg : text) : Prop := sg = [] \/ sg = ["-"%char] \/ sg = ["+"%char].

Lemma not_digit_facts c : is_digit c = true -> is_sign c = false /\ Ascii.eqb c "." = false /\ Ascii.eqb (upper c) "E" = false.
Proof. intros H. apply digit_cases in H. cbn in H. decompose [or] H; subst; try contradiction; repeat split; reflexivity. Qed.

Lemma skipn_len {A} (a b : list A) : skipn (List.length a) (a ++ b) = b.
Proof. induction a; cbn; auto. Qed.
Lemma firstn_len {A} (a b : list A) : firstn (List.length a) (a ++ b) = a.
Proof. induction a; cbn; congruence. Qed.

Lemma skipn_more {A} (a b : list A) n : skipn (List.length a + n) (a ++ b) = skipn n b.
Proof. induction a; cbn; auto. Qed.

Lemma num_len_spec sg d fr ex r :
  is_num_sign sg -> d <> [] -> Forall (fun c => is_digit c = true) d ->
  fr = [] \/ (exists l, fr = "."%char :: l /\ Forall (fun c => is_digit c = true) l) ->
  ex = [] \/ (exists c sg l, ex = c :: sg ++ l /\ (c = "E" \/ c = "e")%char /\ is_num_sign sg /\
               (1 <= List.length l <= 3)%nat /\ Forall (fun c => is_digit c = true) l) ->
  num_len (sg ++ d ++ fr ++ ex ++ " "%char :: r) = List.length (sg ++ d ++ fr ++ ex).
Proof.
  intros Hs Nd Hd Hf He. unfold num_len.
  assert (SL : forall d' Y, d' <> [] -> Forall (fun c => is_digit c = true) d' -> forall sg, is_num_sign sg ->
    sign_len (sg ++ d' ++ Y) = List.length sg).
  { intros d' Y N F sg' H. destruct H as [->|[->| ->]]; try reflexivity.
    destruct d' as [|c d']; [congruence|]. inversion F; subst. cbn.
    destruct (not_digit_facts c) as [-> _]; auto. }
  rewrite (SL d (fr ++ ex ++ " "%char :: r) Nd Hd sg Hs), skipn_len.
  assert (EX : (match ex ++ " "%char :: r with c :: _ => is_digit c = false /\ Ascii.eqb c "." = false | [] => True end)).
  { destruct He as [->|(c & s2 & l & -> & [->| ->] & _)]; split; reflexivity. }
  rewrite (span_app is_digit d).
  2: exact Hd.
  2: { destruct Hf as [->|(l & -> & _)]; cbn [app]; [|reflexivity]. destruct (ex ++ _); [exact I|apply EX]. }
  rewrite skipn_more, skipn_len.
  assert (FL : fraction_len (fr ++ ex ++ " "%char :: r) = List.length fr).
  { destruct Hf as [->|(l & -> & Fl)]; cbn [app fraction_len].
    - destruct (ex ++ " "%char :: r) as [|c Y]; [reflexivity|]. cbn. destruct EX as [_ ->]. reflexivity.
    - cbn [Ascii.eqb Bool.eqb]. rewrite (span_app is_digit l); [reflexivity|exact Fl|].
      destruct (ex ++ " "%char :: r); [exact I|apply EX]. }
  rewrite FL. rewrite <- !Nat.add_assoc, skipn_more, skipn_more, skipn_len.
  assert (XL : exponent_len (ex ++ " "%char :: r) = List.length ex).
  { destruct He as [->|(c & s2 & l & -> & Hc & Hs2 & Hl & Fl)]; [reflexivity|].
    cbn [app exponent_len].
    assert (Ascii.eqb (upper c) "E" = true) as -> by (destruct Hc as [->| ->]; reflexivity).
    rewrite <- (app_assoc s2). rewrite (SL l _ ltac:(destruct l; [cbn in Hl; lia|discriminate]) Fl s2 Hs2), skipn_len.
    rewrite (span_app is_digit l) by (auto; reflexivity). rewrite Nat.min_r by lia.
    destruct (List.length l) eqn:E; [lia|]. cbn [List.length]. rewrite app_length, E. reflexivity. }
  rewrite XL. rewrite !app_length. lia.
Qed.

Lemma written_length t w : written t w -> (1 <= List.length w)%nat.
Proof.
  destruct 1 as [| | | |n f H|sg d fr ex H N]; try (cbn; lia).
  - cbn in H. decompose [or] H; try contradiction; match goal with E : (_, _) = (_, _) |- _ => injection E as <- <- end; cbn; lia.
  - rewrite !app_length. destruct d; [congruence|]. cbn. lia.
Qed.

Lemma written_first t w : written t w -> match w with c :: _ => is_blank c = false | [] => False end.
Proof.
  destruct 1 as [o| | | |n f H|sg d fr ex H N F]; try reflexivity.
  - destruct o; reflexivity.
  - cbn in H. decompose [or] H; try contradiction; match goal with E : (_, _) = (_, _) |- _ => injection E as <- <- end; reflexivity.
  - destruct H as [->|[->| ->]]; try reflexivity. destruct d as [|c d]; [congruence|]. inversion F; subst. cbn.
    match goal with H : is_digit c = true |- _ => apply digit_cases in H; cbn in H; decompose [or] H; subst; try contradiction; reflexivity end.
Qed.

(** One token. *)
Lemma scan_token t w r fuel : written t w ->
  scan symrec_new (S fuel) (w ++ " "%char :: r) = t :: scan symrec_new fuel (" "%char :: r).
Proof.
  destruct 1 as [o| | | |n f H|sg d fr ex Hs Nd Hd Hf He].
  - destruct o; reflexivity.
  - reflexivity.
  - reflexivity.
  - reflexivity.
  - cbn in H. decompose [or] H; try contradiction; match goal with E : (_, _) = (_, _) |- _ => injection E as <- <- end; reflexivity.
  - pose proof (num_len_spec sg d fr ex r Hs Nd Hd Hf He) as L.
    set (w := sg ++ d ++ fr ++ ex) in *.
    assert (E : (sg ++ d ++ fr ++ ex ++ " "%char :: r) = w ++ " "%char :: r) by (unfold w; now rewrite <- !app_assoc).
    rewrite E in L.
    assert (M : match_at (w ++ " "%char :: r) = (List.length w, Number)).
    { rewrite <- L. destruct d as [|c d]; [congruence|].
      destruct Hs as [Hs|Hs].
      - subst sg. unfold w. cbn [app]. apply (match_number c _ 0).
        + left. inversion Hd; auto.
        + unfold w in L. cbn [app] in L. rewrite L. cbn. lia.
      - unfold w in *. destruct Hs as [->| ->]; cbn [app] in *; (apply (match_number _ _ 1); [right; split; reflexivity|rewrite L; cbn; lia]). }
    cbn [scan]. rewrite M, firstn_len, skipn_len. reflexivity.
Qed.

Lemma match_blank s : match_at (" "%char :: s) = (S (span is_blank s), Skip).
Proof.
  unfold match_at. change rules with (firstn 1 rules ++ (span is_blank, Skip) :: skipn 2 rules). rewrite longest_app.
  change (longest (firstn 1 rules) (" "%char :: s) (O, EndOfLine)) with (O, EndOfLine).
  cbn [longest fst]. change (span is_blank (" "%char :: s)) with (S (span is_blank s)).
  rewrite (proj2 (Nat.ltb_lt _ _)) by lia. apply longest_small. cbn [fst].
  unfold rules. cbn [skipn]. repeat (apply Forall_cons; [cbn; lia|]). apply Forall_nil.
Qed.

Lemma spelled_skip ts s : spelled ts s -> spelled ts (skipn (span is_blank s) s).
Proof.
  induction 1 as [|ts s H IH|t w ts s W H IH].
  - constructor.
  - exact IH.
  - pose proof (written_first t w W) as F. destruct w as [|c w]; [contradiction|]. cbn. rewrite F. cbn. now apply (sp_token t (c :: w)).
Qed.

Lemma span_tail s r : line_end r -> span is_blank (s ++ r) = span is_blank s.
Proof.
  intros T. induction s as [|c s IH]; cbn [app span].
  - destruct r as [|c r]; [reflexivity|]. cbn in *. unfold is_newline in T. apply Ascii.eqb_eq in T. subst. reflexivity.
  - now rewrite IH.
Qed.

Lemma span_length f s : (span f s <= List.length s)%nat.
Proof. induction s as [|c s IH]; cbn; [lia|]. destruct (f c); lia. Qed.

Lemma skipn_app_le {A} n (a b : list A) : (n <= List.length a)%nat -> skipn n (a ++ b) = skipn n a ++ b.
Proof. intros H. rewrite skipn_app. replace (n - List.length a)%nat with O by lia. reflexivity. Qed.

Lemma scan_spelled r : line_end r -> forall n s, (List.length s <= n)%nat -> forall ts fuel, spelled ts s -> (List.length s <= fuel)%nat ->
  scan symrec_new fuel (s ++ r) = ts.
Proof.
  intros T n. induction n as [|n IH]; intros s Ln ts fuel S Lf.
  - destruct s; [|cbn in Ln; lia]. inversion S; subst.
    + cbn [app]. destruct fuel; [reflexivity|]. destruct r as [|c r]; [reflexivity|].
      cbn in T. unfold is_newline in T. apply Ascii.eqb_eq in T. subst. reflexivity.
    + destruct w; discriminate.
  - inversion S; subst.
    + cbn [app]. destruct fuel; [reflexivity|]. destruct r as [|c r]; [reflexivity|].
      cbn in T. unfold is_newline in T. apply Ascii.eqb_eq in T. subst. reflexivity.
    + destruct fuel as [|fuel]; [cbn in Lf; lia|]. cbn [app]. cbn [scan]. rewrite match_blank, (span_tail _ _ T). cbn [skipn].
      rewrite skipn_app_le by apply span_length. apply IH.
      * rewrite skipn_length. cbn in Ln. lia.
      * now apply spelled_skip.
      * rewrite skipn_length. cbn in Lf. lia.
    + match goal with W : written t w |- _ => pose proof (written_length t w W) as WL; rewrite app_length in Ln, Lf; cbn in Ln, Lf;
        destruct fuel as [|fuel]; [lia|]; rewrite <- app_assoc; cbn [app]; rewrite (scan_token t w _ fuel W) end.
      f_equal. change (" "%char :: s0 ++ r) with ((" "%char :: s0) ++ r). apply IH.
      * cbn. lia.
      * now constructor.
      * cbn. lia.
Qed.

Theorem tokens_spelled ts s r : spelled ts s -> line_end r -> tokens symrec_new (s ++ r) = ts.
Proof.
  intros S T. unfold tokens. eapply scan_spelled; [exact T|apply Nat.le_refl|exact S|]. rewrite app_length. lia.
Qed.

(** ** Symbols *)

Lemma emplace_get t n s m : getsym (emplace t n s) m =
  if String.eqb n m then match getsym t n with Some x => Some x | None => Some s end else getsym t m.
Proof.
  unfold emplace. destruct (getsym t n) as [x|] eqn:G.
  - destruct (String.eqb_spec n m) as [->|]; auto.
  - cbn. destruct (String.eqb_spec n m) as [->|]; auto.
Qed.

Lemma assign_get t n v m : getsym (assign t n v) m =
  if String.eqb n m then match getsym t n with Some _ => Some (Var v) | None => None end else getsym t m.
Proof.
  induction t as [|[k s] t IH]; cbn [assign getsym]; [now destruct (String.eqb n m)|].
  destruct (String.eqb_spec k n) as [->|N].
  - cbn [getsym]. destruct (String.eqb_spec n m) as [->|]; reflexivity.
  - cbn [getsym]. rewrite IH. destruct (String.eqb_spec k m) as [->|N2].
    + destruct (String.eqb_spec n m) as [->|]; [congruence|reflexivity].
    + destruct (String.eqb_spec n m); reflexivity.
Qed.

Lemma getsym_new n : getsym symrec_new n =
  match find (fun b => String.eqb (fst b) n) builtins with Some b => Some (Fnct (snd b)) | None => None end.
Proof.
  change symrec_new with [("sqrt", Fnct "sqrt"); ("exp", Fnct "exp"); ("ln", Fnct "log"); ("atan", Fnct "atan"); ("acos", Fnct "acos");
    ("asin", Fnct "asin"); ("tan", Fnct "tan"); ("cos", Fnct "cos"); ("sin", Fnct "sin")]%string.
  cbn [getsym find builtins fst snd].
  repeat match goal with |- context [String.eqb ?a n] => destruct (String.eqb_spec a n) as [<-|]; [reflexivity|] end. reflexivity.
Qed.

Lemma did_get t u n : getsym (did t u) n =
  match getsym t n with
  | Some (Fnct f) => Some (Fnct f)
  | Some (Var v) => option_map Var (last_value n [u] (Some v))
  | None => option_map Var (last_value n [u] None)
  end.
Proof.
  destruct u as [m|m w]; cbn [did last_value].
  - unfold putsym. rewrite emplace_get. destruct (String.eqb_spec m n) as [->|].
    + destruct (getsym t n) as [[|]|]; reflexivity.
    + destruct (getsym t n) as [[|]|]; reflexivity.
  - destruct (String.eqb_spec m n) as [->|N].
    + destruct (getsym t n) as [[|]|] eqn:G; cbn; rewrite ?assign_get, ?String.eqb_refl, ?G; reflexivity.
    + destruct (getsym t m) as [[|]|] eqn:G; cbn; rewrite ?assign_get; try (destruct (String.eqb_spec m n); [congruence|]);
        destruct (getsym t n) as [[|]|]; reflexivity.
Qed.

Lemma last_value_cons n u h v : last_value n (u :: h) v = last_value n h (last_value n [u] v).
Proof. destruct u; reflexivity. Qed.

Lemma history_get h : forall t n, getsym (fold_left did h t) n =
  match getsym t n with
  | Some (Fnct f) => Some (Fnct f)
  | Some (Var v) => option_map Var (last_value n h (Some v))
  | None => option_map Var (last_value n h None)
  end.
Proof.
  induction h as [|u h IH]; intros t n; cbn [fold_left].
  - cbn. destruct (getsym t n) as [[|]|]; reflexivity.
  - rewrite IH, did_get. rewrite !(last_value_cons n u h).
    destruct (getsym t n) as [[f|v]|] eqn:G; [reflexivity| |].
    + rewrite (last_value_cons n u h (Some v)). destruct (last_value n [u] (Some v)); reflexivity.
    + destruct (last_value n [u] None); reflexivity.
Qed.

Lemma history_builtin h n f : In (n, f) builtins -> getsym (fold_left did h symrec_new) n = Some (Fnct f).
Proof.
  intros H. rewrite history_get, getsym_new. cbn in H.
  decompose [or] H; try contradiction; match goal with E : (_, _) = (_, _) |- _ => injection E as <- <- end; reflexivity.
Qed.

Lemma history_variable h n : ~ In n (map fst builtins) -> getsym (fold_left did h symrec_new) n = option_map Var (last_value n h None).
Proof.
  intros H. rewrite history_get, getsym_new.
  destruct (find (fun b => String.eqb (fst b) n) builtins) as [[k f]|] eqn:E; [|reflexivity].
  apply find_some in E. destruct E as [I E]. apply String.eqb_eq in E. cbn in E. subst k.
  exfalso. apply H. apply in_map_iff. now exists (n, f).
Qed.

(** Without variables in the table no variable is ever read. *)
Lemma new_no_variable n v : getsym symrec_new n <> Some (Var v).
Proof. rewrite getsym_new. destruct (find _ builtins); discriminate. Qed.

Lemma no_variables s x : ~ In (TVar x) (tokens symrec_new s).
Proof.
  unfold tokens. generalize (List.length s). intros fuel. revert s.
  induction fuel as [|fuel IH]; intros s; cbn [scan]; [auto|].
  assert (RA : forall rs best, (forall y, snd best <> Give (TVar y) /\ snd best <> Leave (TVar y)) ->
    Forall (fun r => forall y, snd r <> Give (TVar y) /\ snd r <> Leave (TVar y)) rs ->
    forall y, snd (longest rs s best) <> Give (TVar y) /\ snd (longest rs s best) <> Leave (TVar y)).
  { intros rs. induction rs as [|[f a] rs IH2]; intros best B F; [exact B|]. inversion F; subst. cbn [longest].
    apply IH2; auto. destruct (fst best <? f s)%nat; auto. }
  assert (MA : forall y, snd (match_at s) <> Give (TVar y) /\ snd (match_at s) <> Leave (TVar y)).
  { unfold match_at. intros y0. refine (RA rules (O, EndOfLine) _ _ y0); [intros y; split; discriminate|].
    unfold rules. repeat (apply Forall_cons; [intros y; split; discriminate|]). apply Forall_nil. }
  destruct (match_at s) as [n a]. cbn [snd] in MA. destruct a as [|k| | |k|].
  - apply IH.
  - intros [->|H]; [exact (proj1 (MA x) eq_refl)|exact (IH _ H)].
  - intros [H|H]; [discriminate|exact (IH _ H)].
  - destruct (getsym symrec_new (string_of_list_ascii (firstn n s))) as [[f|v]|] eqn:G.
    + intros [H|H]; [discriminate|exact (IH _ H)].
    + exfalso. exact (new_no_variable _ _ G).
    + intros [H|H]; [discriminate|exact (IH _ H)].
  - intros [->|[]]. exact (proj2 (MA x) eq_refl).
  - auto.
Qed.

(** ** Expressions without a value *)

Section Failing.
Variable strtod : text -> option double.
Variable call : string -> double -> double.
Variable pow : double -> double -> double.
Notation step := (step strtod call pow).
Notation steps := (steps strtod call pow).
Notation reduce := (reduce pow).
Notation value := (value strtod call pow).
Notation finish := (finish pow).

Fixpoint eval (m : table) (e : ast) : option (double * table) :=
  match e with
  | ENum s => match strtod s with Some v => Some (v, m) | None => None end
  | EVar x => match getsym m x with Some (Var v) => Some (v, m) | _ => None end
  | EAssign x e => match eval m e with Some (v, m') => Some (v, assign m' x v) | None => None end
  | ECall f e => match eval m e with Some (v, m') => Some (call f v, m') | None => None end
  | EBin o a b =>
      match eval m a with
      | Some (x, m1) =>
          match eval m1 b with
          | Some (y, m2) => match binary pow o x y with Parsed r => Some (r, m2) | _ => None end
          | None => None
          end
      | None => None
      end
  | ENeg e => match eval m e with Some (v, m') => Some (Bopp v, m') | None => None end
  end.

Lemma eval_value e : forall m v m', eval m e = Some (v, m') <-> value m e v m'.
Proof.
  induction e as [s|x|x e IH|f e IH|o a IHa b IHb|e IH]; intros m v m'; cbn [eval]; split.
  - destruct (strtod s) eqn:E; [|discriminate]. intros H. injection H as <- <-. now constructor.
  - inversion 1; subst. match goal with H : strtod s = _ |- _ => rewrite H end. reflexivity.
  - destruct (getsym m x) as [[|w]|] eqn:E; try discriminate. intros H. injection H as <- <-. now constructor.
  - inversion 1; subst. match goal with H : getsym _ x = _ |- _ => rewrite H end. reflexivity.
  - destruct (eval m e) as [[w n]|] eqn:E; [|discriminate]. intros H. injection H as <- <-. constructor. now apply IH.
  - inversion 1; subst. match goal with H : value m e _ _ |- _ => apply IH in H; rewrite H end. reflexivity.
  - destruct (eval m e) as [[w n]|] eqn:E; [|discriminate]. intros H. injection H as <- <-. constructor. now apply IH.
  - inversion 1; subst. match goal with H : value m e _ _ |- _ => apply IH in H; rewrite H end. reflexivity.
  - destruct (eval m a) as [[x m1]|] eqn:A; [|discriminate]. destruct (eval m1 b) as [[y m2]|] eqn:B; [|discriminate].
    destruct (binary pow o x y) as [r| |] eqn:R; try discriminate. intros H. injection H as <- <-.
    apply IHa in A. apply IHb in B. apply binary_result in R. econstructor; eauto.
  - inversion 1; subst.
    match goal with H : value m a _ _ |- _ => apply IHa in H; rewrite H end.
    match goal with H : value _ b _ _ |- _ => apply IHb in H; rewrite H end.
    match goal with H : result _ _ _ _ _ |- _ => apply binary_result in H; rewrite H end. reflexivity.
  - destruct (eval m e) as [[w n]|] eqn:E; [|discriminate]. intros H. injection H as <- <-. constructor. now apply IH.
  - inversion 1; subst. match goal with H : value m e _ _ |- _ => apply IH in H; rewrite H end. reflexivity.
Qed.

Definition fails (b : bool) (k : kind) (p : parsed state) : Prop :=
  match p with
  | Rejected => True
  | Parsed st => st_top st <> TopNone /\ forall la, weak b k la -> finish (option_map level la) st = Rejected
  | Thrown _ => False
  end.

Lemma fails_up b k k' p : fails b k' p -> klevel k <= klevel k' -> fails b k p.
Proof.
  destruct p as [st| |]; cbn; auto. intros [T F] L. split; [exact T|]. intros la W. apply F. eapply weak_up; eauto.
Qed.

Lemma binary_rejects o x y : (forall r, binary pow o x y <> Parsed r) -> binary pow o x y = Rejected.
Proof.
  destruct o; cbn [binary]; intros H; try (exfalso; eapply H; reflexivity).
  destruct (Beqb y (double_of_Z 0)); [reflexivity|exfalso; eapply H; reflexivity].
Qed.

Lemma no_value b k e ts : sentence b k e ts -> forall m fs, eval m e = None -> roomy fs k ->
  fails b k (steps (St m fs TopNone) ts).
Proof.
  assert (BIN : forall b bl k kl kr o x y tx ty,
    (forall m fs, eval m x = None -> roomy fs kl -> fails bl kl (steps (St m fs TopNone) tx)) ->
    (forall m fs, eval m y = None -> roomy fs kr -> fails b kr (steps (St m fs TopNone) ty)) ->
    sentence bl kl x tx -> sentence b kr y ty -> bl = false ->
    klevel k = level o -> klevel k <= klevel kl -> weak false kl (Some o) ->
    (forall o', klevel kr <= level o' -> reduces (level o) (Some (level o')) = false) ->
    (forall la, weak b k la -> weak b kr la) ->
    forall m fs, eval m (EBin o x y) = None -> roomy fs k ->
    fails b k (steps (St m fs TopNone) (tx ++ TOp o :: ty))).
  { intros b0 bl k0 kl kr o x y tx ty IHx IHy Sx Sy -> K L W R M m fs V RM. cbn [eval] in V. rewrite steps_app.
    destruct (eval m x) as [[xv mx]|] eqn:Ex.
    - apply eval_value in Ex.
      destruct (reads strtod call pow false kl x tx Sx m xv mx fs Ex (roomy_mono _ _ _ RM L)) as (s1 & S1 & T1 & F1).
      specialize (F1 (Some o) W). cbn [option_map] in F1.
      rewrite S1. cbn [pbind Expr_Model.steps]. rewrite (step_op _ _ _ _ _ T1), F1.
      rewrite (roomy_stop pow fs k0) by (auto; lia). cbn [pbind].
      assert (RR : roomy (FBin xv o :: fs) kr) by (unfold roomy; cbn [frame_level]; exact R).
      destruct (eval mx y) as [[yv my]|] eqn:Ey.
      + apply eval_value in Ey.
        destruct (reads strtod call pow b0 kr y ty Sy mx yv my (FBin xv o :: fs) Ey RR) as (s2 & S2 & T2 & F2).
        rewrite S2. cbn [fails]. split; [exact T2|]. intros la WL. rewrite (F2 la (M la WL)). cbn [Expr_Model.reduce frame_level].
        assert (reduces (level o) (option_map level la) = true) as ->.
        { rewrite <- K. apply (reduces_weak b0); [exact WL|]. rewrite K. destruct o; cbn; lia. }
        cbn [complete]. rewrite binary_rejects; [reflexivity|]. intros r B. rewrite B in V. discriminate.
      + specialize (IHy mx (FBin xv o :: fs) Ey RR). destruct (steps _ ty) as [s2| |]; cbn in *; auto.
        destruct IHy as [T2 F2]. split; [exact T2|]. intros la WL. auto.
    - specialize (IHx m fs Ex (roomy_mono _ _ _ RM L)). destruct (steps (St m fs TopNone) tx) as [s1| |]; cbn [fails pbind] in *; auto.
      destruct IHx as [T1 F1]. cbn [Expr_Model.steps]. rewrite (step_op _ _ _ _ _ T1).
      specialize (F1 (Some o) W). cbn [option_map] in F1. rewrite F1. exact I. }
  induction 1.
  - apply (BIN b false Sum Sum Product o x y tx ty); auto.
    + destruct H as [-> | ->]; reflexivity.
    + lia.
    + split; [reflexivity|]. destruct H as [-> | ->]; cbn; lia.
    + intros o'. destruct H as [-> | ->]; destruct o'; cbn; lia || auto.
    + intros la W. eapply weak_up; [exact W|cbn; lia].
  - intros m fs V R. eapply fails_up; [apply IHsentence; [exact V|eapply roomy_mono; [exact R|cbn; lia]]|cbn; lia].
  - apply (BIN b false Product Product Factor o x y tx ty); auto.
    + destruct H as [-> | ->]; reflexivity.
    + lia.
    + split; [reflexivity|]. destruct H as [-> | ->]; cbn; lia.
    + intros o'. destruct H as [-> | ->]; destruct o'; cbn; lia || auto.
    + intros la W. eapply weak_up; [exact W|cbn; lia].
  - intros m fs V R. eapply fails_up; [apply IHsentence; [exact V|eapply roomy_mono; [exact R|cbn; lia]]|cbn; lia].
  - intros m fs V R. cbn [eval] in V. destruct (eval m e) as [[w n]|] eqn:E; [discriminate|].
    cbn [Expr_Model.steps Expr_Model.step st_top]. rewrite (roomy_fresh m fs Factor R). cbn [pbind st_vars st_frames].
    assert (RR : roomy (FNeg :: fs) Factor) by (unfold roomy; cbn; intros o; destruct o; cbn; lia || auto).
    specialize (IHsentence m (FNeg :: fs) E RR).
    destruct (steps _ ts) as [st| |]; cbn [fails] in *; auto.
  - intros m fs V R. eapply fails_up; [apply IHsentence; [exact V|eapply roomy_mono; [exact R|cbn; lia]]|cbn; lia].
  - apply (BIN b false Power Atom Factor OpPow x y tx ty); auto.
    + cbn; lia.
    + split; [reflexivity|]. cbn; lia.
    + intros o'. destruct o'; cbn; lia || auto.
    + intros la W. destruct la as [o|]; [|exact I]. destruct W as [-> W]. split; [reflexivity|].
      destruct o; cbn in *; lia.
  - intros m fs V R. eapply fails_up; [apply IHsentence; [exact V|eapply roomy_mono; [exact R|cbn; lia]]|cbn; lia].
  - intros m fs V R. cbn [eval] in V. cbn [Expr_Model.steps Expr_Model.step]. rewrite (roomy_fresh m fs Atom R).
    destruct (strtod s); [discriminate|exact I].
  - intros m fs V R. cbn [eval] in V. cbn [Expr_Model.steps Expr_Model.step]. rewrite (roomy_fresh m fs Atom R).
    cbn [pbind fails st_top]. split; [discriminate|]. intros la _. unfold finish, settle. cbn [st_top st_vars].
    destruct (getsym m x) as [[|w]|]; [reflexivity|discriminate|reflexivity].
  - intros m fs V R. cbn [Expr_Model.steps].
    assert (step (St m fs TopNone) TOpen = Parsed (St m (FOpen :: fs) TopNone)) as ->.
    { cbn [Expr_Model.step st_top st_frames st_vars]. destruct fs as [|[] r]; auto; contradiction. }
    cbn [pbind]. rewrite steps_app. specialize (IHsentence m (FOpen :: fs) V I).
    destruct (steps _ ts) as [st| |]; cbn [fails pbind Expr_Model.steps] in *; auto.
    destruct IHsentence as [_ F]. specialize (F None I). cbn [option_map] in F. rewrite step_close, F. exact I.
  - intros m fs V R. cbn [eval] in V. destruct (eval m e) as [[w n]|] eqn:E; [discriminate|].
    cbn [Expr_Model.steps Expr_Model.step]. rewrite (roomy_fresh m fs Atom R). cbn [pbind st_vars st_frames st_top].
    rewrite steps_app. specialize (IHsentence m (FCall f :: fs) E I).
    destruct (steps _ ts) as [st| |]; cbn [fails pbind Expr_Model.steps] in *; auto.
    destruct IHsentence as [_ F]. specialize (F None I). cbn [option_map] in F. rewrite step_close, F. exact I.
  - intros m fs V R. cbn [eval] in V. destruct (eval m e) as [[w n]|] eqn:E; [discriminate|].
    cbn [Expr_Model.steps Expr_Model.step]. rewrite (roomy_fresh m fs Atom R). cbn [pbind st_vars st_frames st_top].
    assert (RR : roomy (FAssign x :: fs) Sum) by (unfold roomy; cbn; intros o; destruct o; cbn; auto).
    specialize (IHsentence m (FAssign x :: fs) E RR).
    destruct (steps _ ts) as [st| |]; cbn [fails] in *; auto.
    destruct IHsentence as [T F]. split; [exact T|]. intros la W. destruct la as [o|]; [destruct W; discriminate|]. apply F. exact I.
Qed.

Lemma expression_rejects b e ts m : sentence b Sum e ts -> (forall v m', ~ value m e v m') ->
  expression strtod call pow m ts = Rejected.
Proof.
  intros S N. rewrite expression_finish.
  assert (E : eval m e = None).
  { destruct (eval m e) as [[v m']|] eqn:E; [|reflexivity]. apply eval_value in E. exfalso. exact (N _ _ E). }
  pose proof (no_value b Sum e ts S m [] E I) as F.
  destruct (steps (St m [] TopNone) ts) as [st| |]; cbn [fails pbind] in *; auto; [|contradiction].
  destruct F as [_ F]. specialize (F None I). cbn [option_map] in F. rewrite F. reflexivity.
Qed.

Notation part := (part strtod call pow).

Lemma value_det m e v m' w m'' : value m e v m' -> value m e w m'' -> v = w /\ m' = m''.
Proof. intros A B. apply eval_value in A. apply eval_value in B. rewrite A in B. injection B as -> ->. auto. Qed.

Lemma part_value m e n p : part m e n p -> forall v m', value m e v m' -> exists w n', value n p w n'.
Proof.
  induction 1; intros v m' V.
  - eauto.
  - inversion V; subst. eapply IHpart; eauto.
  - inversion V; subst. eapply IHpart; eauto.
  - inversion V; subst. eapply IHpart; eauto.
  - inversion V; subst. eapply IHpart; eauto.
  - inversion V; subst.
    match goal with A : value m a x m1, B : value m a _ _ |- _ => destruct (value_det _ _ _ _ _ _ A B) as [<- <-] end.
    eapply IHpart; eauto.
Qed.

Lemma division_rejected b e ts m n p q x m1 y m2 : sentence b Sum e ts -> part m e n (EBin OpDiv p q) ->
  value n p x m1 -> value m1 q y m2 -> zero y -> expression strtod call pow m ts = Rejected.
Proof.
  intros S P Vp Vq Z. eapply expression_rejects; [exact S|]. intros v m' V.
  destruct (part_value _ _ _ _ P v m' V) as (w & n' & W). inversion W; subst.
  match goal with A : value n p x m1, B : value n p _ _ |- _ => destruct (value_det _ _ _ _ _ _ A B) as [<- <-] end.
  match goal with A : value m1 q y m2, B : value m1 q _ _ |- _ => destruct (value_det _ _ _ _ _ _ A B) as [<- <-] end.
  match goal with R : result _ OpDiv _ _ _ |- _ => inversion R; subst; contradiction end.
Qed.
End Failing.

Lemma sentence_equals b k e ts : sentence b k e ts -> In TEquals ts -> exists x, In (TVar x) ts.
Proof.
  induction 1; intros I0; cbn [In] in *; repeat rewrite in_app_iff in *; cbn [In] in *;
    repeat match goal with
    | H : _ \/ _ |- _ => destruct H
    | H : _ = TEquals |- _ => discriminate H
    | H : False |- _ => destruct H
    end;
    try match goal with IH : In TEquals ?l -> _, H : In TEquals ?l |- _ => destruct (IH H) as [z Hz]; exists z; rewrite ?in_app_iff; cbn [In]; rewrite ?in_app_iff; tauto end;
    try (exists x; now left).
Qed.

Lemma assignment_rejected strtod call pow s : In TEquals (tokens symrec_new s) ->
  expression_text strtod call pow symrec_new s = Rejected.
Proof.
  intros H. unfold expression_text.
  destruct (expression_total strtod call pow symrec_new (tokens symrec_new s)) as [(v & m' & E)|E]; [|exact E].
  apply expression_meaning in E. destruct E as (b & e & S & _).
  destruct (sentence_equals _ _ _ _ S H) as [x X]. exfalso. exact (no_variables s x X).
Qed.

Lemma text_meaning strtod call pow b e ts s r : sentence b Sum e ts -> spelled ts s -> line_end r ->
  (forall v m', value strtod call pow symrec_new e v m' -> expression_text strtod call pow symrec_new (s ++ r) = Parsed (v, m')) /\
  ((forall v m', ~ value strtod call pow symrec_new e v m') -> expression_text strtod call pow symrec_new (s ++ r) = Rejected).
Proof.
  intros S W T. unfold expression_text. rewrite (tokens_spelled ts s r W T). split.
  - intros v m' V. apply expression_meaning. eauto.
  - intros N. eapply expression_rejects; eauto.
Qed.

Lemma signs_swallowed strtod call pow a b :
  strtod (chars "-2") = Some a -> strtod (chars "2") = Some b ->
  expression_text strtod call pow symrec_new (chars "3-2") = Rejected /\
  expression_text strtod call pow symrec_new (chars "-2^2") = Parsed (pow a b, symrec_new).
Proof.
  intros A B. unfold expression_text.
  change (tokens symrec_new (chars "3-2")) with [TNum (chars "3"); TNum (chars "-2")].
  change (tokens symrec_new (chars "-2^2")) with [TNum (chars "-2"); TOp OpPow; TNum (chars "2")]. split.
  - unfold expression. cbn [steps step fresh st_top st_frames st_vars]. destruct (strtod (chars "3")); reflexivity.
  - apply expression_meaning. exists false, (EBin OpPow (ENum (chars "-2")) (ENum (chars "2"))). split.
    + apply s_sum1, s_product1, s_factor1. apply (s_pow false (ENum (chars "-2")) (ENum (chars "2")) [TNum (chars "-2")] [TNum (chars "2")]).
      * constructor.
      * apply s_factor1, s_power1. constructor.
    + econstructor; constructor; assumption.
Qed.

Lemma expression_otherwise strtod call pow m ts :
  (forall b e, sentence b Sum e ts -> (forall v m', ~ value strtod call pow m e v m') ->
     expression strtod call pow m ts = Rejected) /\
  ((forall b e, ~ sentence b Sum e ts) -> expression strtod call pow m ts = Rejected).
Proof.
  split.
  - intros b e S N. eapply expression_rejects; eauto.
  - intros N. destruct (expression_total strtod call pow m ts) as [(v & m' & E)|E]; [|exact E].
    apply expression_meaning in E. destruct E as (b & e & S & _). exfalso. exact (N b e S).
Qed.

Lemma no_variable_texts strtod call pow s :
  (forall x, ~ In (TVar x) (tokens symrec_new s)) /\
  (In TEquals (tokens symrec_new s) -> expression_text strtod call pow symrec_new s = Rejected).
Proof. split; [apply no_variables|apply assignment_rejected]. Qed.

Lemma putsym_facts t n :
  (exists s, getsym (putsym t n) n = Some s) /\
  (forall m s, getsym t m = Some s -> getsym (putsym t n) m = Some s) /\
  (forall m, m <> n -> getsym (putsym t n) m = getsym t m).
Proof.
  unfold putsym. split; [|split].
  - rewrite emplace_get, String.eqb_refl. destruct (getsym t n); eauto.
  - intros m s H. rewrite emplace_get. destruct (String.eqb_spec n m) as [->|]; rewrite H; reflexivity.
  - intros m N. rewrite emplace_get. destruct (String.eqb_spec n m); congruence.
Qed.
