(** The grammar of input files is unambiguous: a parser that looks one token
    ahead finds the only reading. *)
From Coq Require Import List ZArith Bool Ascii String Lia.
From Flocq Require Import BinarySingleNaN.
From Verif Require Import Base Flt Num Entry_Model Expr_Model Parse_Model Text_Model.
Import ListNotations.
#[local] Arguments expression : simpl never.
#[local] Arguments number_of : simpl never.
#[local] Arguments symrec_new : simpl never.

Section Parser.
Context (strtod : text -> option double) (call : string -> double -> double) (pow : double -> double -> double).
Notation derives := (derives strtod call pow).

(** Classes of tokens and sets of them. *)
Definition cls (t : tok) : string :=
  match t with KEY k => k | STRING _ => "string" | EX _ => "expr" end%string.
Definition mem (k : string) (l : list string) : bool := existsb (String.eqb k) l.
Definition disjoint (a b : list string) : bool := forallb (fun k => negb (mem k b)) a.
Definition starts (l : list string) (ts : list tok) : bool := match ts with [] => false | t :: _ => mem (cls t) l end.

Lemma mem_In k l : mem k l = true <-> In k l.
Proof.
  unfold mem. rewrite existsb_exists. split.
  - intros (x & H & E). apply String.eqb_eq in E. subst. exact H.
  - intro H. exists k. split; [exact H|apply String.eqb_refl].
Qed.
Lemma disjoint_spec a b : disjoint a b = true -> forall k, In k a -> In k b -> False.
Proof.
  unfold disjoint. rewrite forallb_forall. intros H k Ha Hb. specialize (H k Ha). apply negb_true_iff in H.
  apply mem_In in Hb. congruence.
Qed.

Fixpoint nullable {A} (g : bnf A) : bool :=
  match g with
  | Empty => true | Tok _ | Str | Num | Expr => false
  | Seq g h => nullable g && nullable h
  | Or g h => nullable g || nullable h
  | Many _ => true
  | Val _ g => nullable g
  end.
Fixpoint first {A} (g : bnf A) : list string :=
  match g with
  | Empty => []
  | Tok k => [k]
  | Str => ["string"%string]
  | Num | Expr => ["expr"%string]
  | Seq g h => first g ++ (if nullable g then first h else [])
  | Or g h => first g ++ first h
  | Many g => first g
  | Val _ g => first g
  end.
(** Tokens that must not follow. *)
Fixpoint bad {A} (g : bnf A) : list string :=
  match g with
  | Empty | Tok _ | Str | Num => []
  | Expr => ["expr"%string]
  | Seq g h => bad h ++ (if nullable h then bad g else [])
  | Or g h => bad g ++ bad h ++ (if nullable g then first h else []) ++ (if nullable h then first g else [])
  | Many g => bad g ++ first g
  | Val _ g => bad g
  end.
Fixpoint good {A} (g : bnf A) : bool :=
  match g with
  | Empty | Tok _ | Str | Num | Expr => true
  | Seq g h => good g && good h && disjoint (bad g) (first h)
  | Or g h => good g && good h && disjoint (first g) (first h) && negb (nullable g && nullable h)
  | Many g => good g && negb (nullable g) && disjoint (bad g) (first g)
  | Val _ g => good g
  end.

Fixpoint ex_span (ts : list tok) : list token * list tok :=
  match ts with
  | EX t :: r => let '(l, q) := ex_span r in (t :: l, q)
  | _ => ([], ts)
  end.

Fixpoint parse {A} (g : bnf A) : list tok -> option (A * list tok) :=
  match g in bnf A return list tok -> option (A * list tok) with
  | Empty => fun ts => Some (tt, ts)
  | Tok k => fun ts => match ts with KEY j :: r => if String.eqb j k then Some (tt, r) else None | _ => None end
  | Str => fun ts => match ts with STRING s :: r => Some (s, r) | _ => None end
  | Num => fun ts => match ts with EX (TNum s) :: r => Some (number_of s, r) | _ => None end
  | Expr => fun ts =>
      let '(l, r) := ex_span ts in
      match expression strtod call pow symrec_new l with Parsed (v, _) => Some (v, r) | _ => None end
  | Seq g h => fun ts =>
      match parse g ts with
      | Some (a, r) => match parse h r with Some (b, r) => Some ((a, b), r) | None => None end
      | None => None
      end
  | Or g h => fun ts =>
      if starts (first g) ts || nullable g && negb (starts (first h) ts) then parse g ts else parse h ts
  | Many g => fun ts =>
      (fix many (fuel : nat) (ts : list tok) :=
         match fuel with
         | O => Some ([], ts)
         | S fuel =>
             if starts (first g) ts then
               match parse g ts with
               | Some (a, r) => match many fuel r with Some (l, r) => Some (a :: l, r) | None => None end
               | None => None
               end
             else Some ([], ts)
         end) (List.length ts) ts
  | Val f g => fun ts => match parse g ts with Some (a, r) => Some (f a, r) | None => None end
  end.

(** What begins a derived text. *)
Lemma derives_first : forall A (g : bnf A) a ts, derives g a ts ->
  match ts with [] => nullable g = true | t :: _ => In (cls t) (first g) end.
Proof.
  induction g; intros a ts H; cbn in H |- *.
  - subst. reflexivity.
  - subst. cbn. auto.
  - subst. cbn. auto.
  - destruct H as (s & -> & _). cbn. auto.
  - destruct H as (l & vars & -> & H). destruct l as [|t l]; cbn; [|auto].
    discriminate H.
  - destruct H as (u & v & -> & H1 & H2). specialize (IHg1 _ _ H1). specialize (IHg2 _ _ H2).
    destruct u as [|t u]; cbn.
    + rewrite IHg1. destruct v as [|t v]; [exact IHg2|]. apply in_app_iff. right. exact IHg2.
    + apply in_app_iff. left. exact IHg1.
  - destruct H as [H|H]; [specialize (IHg1 _ _ H)|specialize (IHg2 _ _ H)];
      destruct ts as [|t ts]; try (rewrite ?IHg1, ?IHg2; auto using orb_true_r; fail); apply in_app_iff; auto.
  - destruct H as (us & -> & H). induction H as [|x u l us Hx Hl IH]; cbn; [reflexivity|].
    specialize (IHg _ _ Hx). destruct u as [|t u]; cbn; [|exact IHg]. exact IH.
  - destruct H as (x & -> & H). exact (IHg _ _ H).
Qed.

(** [ts] may follow. *)
Definition may_follow (l : list string) (ts : list tok) : Prop := match ts with [] => True | t :: _ => ~ In (cls t) l end.
Lemma follow_app a b ts : may_follow (a ++ b) ts <-> may_follow a ts /\ may_follow b ts.
Proof. destruct ts; cbn; [tauto|]. rewrite in_app_iff. tauto. Qed.
Lemma starts_spec l ts : starts l ts = true <-> exists t r, ts = t :: r /\ In (cls t) l.
Proof.
  destruct ts as [|t r]; cbn.
  - split; [discriminate|]. intros (t & r & E & _). discriminate E.
  - rewrite mem_In. split; [intro H; exists t, r; auto|]. intros (t' & r' & E & H). injection E. intros. subst. exact H.
Qed.

Lemma ex_span_app l r : may_follow ["expr"%string] r -> ex_span (map EX l ++ r) = (l, r).
Proof.
  intro H. induction l as [|t l IH]; cbn; [|rewrite IH; reflexivity].
  destruct r as [|[k|s|t] r]; cbn in *; try reflexivity. exfalso. auto.
Qed.
Lemma ex_span_inv ts l r : ex_span ts = (l, r) -> ts = map EX l ++ r.
Proof.
  revert l r. induction ts as [|[k|s|t] ts IH]; intros l r H; cbn in H; try (injection H as <- <-; reflexivity).
  destruct (ex_span ts) as [l' r'] eqn:E. injection H as <- <-. cbn. f_equal. apply IH. reflexivity.
Qed.

(** The parser finds every derivation ... *)
Theorem parse_complete : forall A (g : bnf A), good g = true -> forall a u r, derives g a u -> may_follow (bad g) r ->
  parse g (u ++ r) = Some (a, r).
Proof.
  induction g; intros G a u r D F; cbn in G, D, F |- *.
  - subst. destruct a. reflexivity.
  - subst. cbn. rewrite String.eqb_refl. destruct a. reflexivity.
  - subst. reflexivity.
  - destruct D as (s & -> & ->). reflexivity.
  - destruct D as (l & vars & -> & D). rewrite ex_span_app by exact F. rewrite D. reflexivity.
  - destruct D as (u1 & u2 & -> & D1 & D2). apply andb_true_iff in G. destruct G as [G Gd]. apply andb_true_iff in G.
    destruct G as [G1 G2]. apply follow_app in F. destruct F as [F2 F1]. rewrite <- app_assoc.
    rewrite (IHg1 G1 (fst a) u1 (u2 ++ r) D1).
    + rewrite (IHg2 G2 (snd a) u2 r D2 F2). destruct a. reflexivity.
    + pose proof (derives_first _ _ _ _ D2) as S. destruct u2 as [|t u2]; cbn.
      * rewrite S in F1. destruct r; exact F1.
      * intro I. exact (disjoint_spec _ _ Gd _ I S).
  - rewrite !andb_true_iff in G. destruct G as [[[G1 G2] Gd] Gn]. rewrite !follow_app in F.
    destruct F as (F1 & F2 & F3 & F4).
    assert (S1 : forall t q, u = t :: q -> In (cls t) (first g1) -> starts (first g1) (u ++ r) = true).
    { intros t q -> I. apply starts_spec. cbn. eauto. }
    destruct D as [D|D].
    + rewrite (IHg1 G1 _ _ _ D F1).
      assert (E : starts (first g1) (u ++ r) || nullable g1 && negb (starts (first g2) (u ++ r)) = true).
      { apply orb_true_iff. pose proof (derives_first _ _ _ _ D) as S. destruct u as [|t u].
        - right. rewrite S in *. cbn. apply negb_true_iff. apply not_true_is_false. intro X. apply starts_spec in X.
          destruct X as (t & q & -> & I). cbn in F3. exact (F3 I).
        - left. exact (S1 _ _ eq_refl S). }
      rewrite E. reflexivity.
    + rewrite (IHg2 G2 _ _ _ D F2).
      assert (E : starts (first g1) (u ++ r) || nullable g1 && negb (starts (first g2) (u ++ r)) = false).
      { pose proof (derives_first _ _ _ _ D) as S. apply orb_false_iff. destruct u as [|t u].
        - rewrite S in *. rewrite andb_true_r in Gn. apply negb_true_iff in Gn. rewrite Gn. split; [|reflexivity].
          apply not_true_is_false. intro X. cbn [app] in X. apply starts_spec in X. destruct X as (t & q & -> & I). cbn in F4. exact (F4 I).
        - split.
          + apply not_true_is_false. intro X. apply starts_spec in X. destruct X as (t' & q & E & I).
            injection E as -> _. exact (disjoint_spec _ _ Gd _ I S).
          + replace (starts (first g2) ((t :: u) ++ r)) with true; [apply andb_false_r|]. symmetry. apply starts_spec.
            cbn. eauto. }
      rewrite E. reflexivity.
  - destruct D as (us & -> & D). rewrite !andb_true_iff in G. destruct G as [[G1 Gn] Gd]. apply negb_true_iff in Gn.
    apply follow_app in F. destruct F as [F1 F2].
    assert (S : starts (first g) r = false).
    { apply not_true_is_false. intro X. apply starts_spec in X. destruct X as (t & q & -> & I). exact (F2 I). }
    match goal with |- ?f _ _ = _ => set (many := f) end.
    assert (M : forall fuel, (List.length (List.concat us) <= fuel)%nat -> many fuel (List.concat us ++ r) = Some (a, r)).
    { induction D as [|x v l vs Dx Dl IH]; intros fuel L.
      - cbn. destruct fuel as [|fuel]; unfold many; fold many; [reflexivity|]. rewrite S. reflexivity.
      - pose proof (derives_first _ _ _ _ Dx) as Sx. destruct v as [|t v]; [congruence|].
        cbn in L. destruct fuel as [|fuel]; [lia|]. cbn [List.concat]. rewrite <- app_assoc.
        unfold many; fold many.
        replace (starts (first g) ((t :: v) ++ List.concat vs ++ r)) with true
          by (symmetry; apply starts_spec; cbn; eauto).
        rewrite (IHg G1 _ _ (List.concat vs ++ r) Dx).
        + rewrite IH; [reflexivity|]. rewrite app_length in L. lia.
        + destruct vs as [|v' vs]; cbn; [exact F1|]. inversion Dl; subst.
          match goal with H : derives g _ v' |- _ => pose proof (derives_first _ _ _ _ H) as S' end.
          destruct v' as [|t' v']; [congruence|]. cbn. intro I. exact (disjoint_spec _ _ Gd _ I S'). }
    apply M. rewrite app_length. lia.
  - destruct D as (x & -> & D). rewrite (IHg G _ _ _ D F). reflexivity.
Qed.

(** ... and nothing else. *)
Theorem parse_sound : forall A (g : bnf A) ts a r, parse g ts = Some (a, r) -> exists u, ts = u ++ r /\ derives g a u.
Proof.
  induction g; intros ts a r P; cbn in P |- *.
  - injection P as _ <-. exists []. auto.
  - destruct ts as [|[j|s'|t] ts]; try discriminate. destruct (String.eqb_spec j s) as [->|]; [|discriminate].
    injection P as _ <-. exists [KEY s]. auto.
  - destruct ts as [|[j|s|t] ts]; try discriminate. injection P as <- <-. exists [STRING s]. auto.
  - destruct ts as [|[j|s|[]] ts]; try discriminate. injection P as <- <-. eexists [_]. cbn. eauto.
  - destruct (ex_span ts) as [l q] eqn:E. destruct expression as [[v m]| |] eqn:X; try discriminate.
    injection P as <- <-. exists (map EX l). split; [apply ex_span_inv; exact E|]. eauto.
  - destruct (parse g1 ts) as [[x q]|] eqn:P1; [|discriminate]. destruct (parse g2 q) as [[y q']|] eqn:P2; [|discriminate].
    injection P as <- <-. destruct (IHg1 _ _ _ P1) as (u & -> & D1). destruct (IHg2 _ _ _ P2) as (v & -> & D2).
    exists (u ++ v). split; [apply app_assoc|]. exists u, v. auto.
  - destruct (_ || _); [destruct (IHg1 _ _ _ P) as (u & -> & D)|destruct (IHg2 _ _ _ P) as (u & -> & D)]; eauto.
  - revert P. match goal with |- ?f _ _ = _ -> _ => set (many := f) end. generalize (List.length ts). intros fuel.
    revert ts a r. induction fuel as [|fuel IH]; intros ts a r P; unfold many in P; fold many in P.
    + injection P as <- <-. exists []. split; [reflexivity|]. exists []. auto.
    + destruct (starts (first g) ts).
      * destruct (parse g ts) as [[x q]|] eqn:P1; [|discriminate]. destruct (many fuel q) as [[l q']|] eqn:P2; [|discriminate].
        injection P as <- <-. destruct (IHg _ _ _ P1) as (u & -> & D1). destruct (IH _ _ _ P2) as (v & -> & us & -> & D2).
        exists (u ++ List.concat us). split; [apply app_assoc|]. exists (u :: us). split; [reflexivity|]. constructor; assumption.
      * injection P as <- <-. exists []. split; [reflexivity|]. exists []. auto.
  - destruct (parse g ts) as [[x q]|] eqn:P1; [|discriminate]. injection P as <- <-.
    destruct (IHg _ _ _ P1) as (u & -> & D). eauto.
Qed.

Corollary good_unique A (g : bnf A) a b ts : good g = true -> derives g a ts -> derives g b ts -> a = b.
Proof.
  intros G D E. pose proof (parse_complete _ g G a ts [] D I). pose proof (parse_complete _ g G b ts [] E I). congruence.
Qed.

(** ** Rules written with one alternative per prefix *)
Definition same {A} (g h : bnf A) : Prop := forall a ts, derives g a ts <-> derives h a ts.
Lemma same_refl A (g : bnf A) : same g g. Proof. intros a ts. tauto. Qed.
Lemma same_trans A (g h k : bnf A) : same g h -> same h k -> same g k.
Proof. intros H K a ts. rewrite (H a ts). apply K. Qed.
Lemma same_Seq A B (g g' : bnf A) (h h' : bnf B) : same g g' -> same h h' -> same (Seq g h) (Seq g' h').
Proof.
  intros G H a ts. cbn. split; intros (u & v & E & X & Y); exists u, v; (split; [exact E|split; [apply G|apply H]; assumption]).
Qed.
Lemma same_Or A (g g' h h' : bnf A) : same g g' -> same h h' -> same (Or g h) (Or g' h').
Proof. intros G H a ts. cbn. rewrite (G a ts), (H a ts). tauto. Qed.
Lemma same_Many A (g g' : bnf A) : same g g' -> same (Many g) (Many g').
Proof.
  intros G a ts. cbn. split; intros (us & E & X); exists us; (split; [exact E|]);
    clear E; (induction X; constructor; [apply G; assumption|assumption]).
Qed.
Lemma same_Val A B (f : A -> B) (g g' : bnf A) : same g g' -> same (Val f g) (Val f g').
Proof. intros G a ts. cbn. split; intros (x & E & X); exists x; (split; [exact E|apply G; exact X]). Qed.

Lemma same_seq A B C (f : A -> B -> C) g g' h h' : same g g' -> same h h' -> same (seq f g h) (seq f g' h').
Proof. intros G H. apply same_Val, same_Seq; assumption. Qed.
Lemma same_opt A (g g' : bnf A) : same g g' -> same (opt g) (opt g').
Proof. intro G. apply same_Or; [apply same_refl|]. apply same_Val, G. Qed.
Lemma same_key A k (g g' : bnf A) : same g g' -> same (key k g) (key k g').
Proof. intro G. apply same_Val, same_Seq; [apply same_refl|]. apply same_Seq; [apply same_refl|exact G]. Qed.

Ltac fin := split; [reflexivity|split; [reflexivity|split; [eassumption|first [eassumption|eauto 8]]]].
Lemma d_Or A (g h : bnf A) a ts : derives (Or g h) a ts <-> derives g a ts \/ derives h a ts.
Proof. reflexivity. Qed.
Lemma d_Val A B (f : A -> B) g a ts : derives (Val f g) a ts <-> exists x, a = f x /\ derives g x ts.
Proof. reflexivity. Qed.
Lemma d_Seq A B (g : bnf A) (h : bnf B) p ts :
  derives (Seq g h) p ts <-> exists u v, ts = u ++ v /\ derives g (fst p) u /\ derives h (snd p) v.
Proof. reflexivity. Qed.
Lemma d_seq A B C (f : A -> B -> C) g h c ts :
  derives (seq f g h) c ts <-> exists x y u v, c = f x y /\ ts = u ++ v /\ derives g x u /\ derives h y v.
Proof.
  unfold seq. rewrite d_Val. split.
  - intros ([x y] & -> & u & v & -> & G & H). exists x, y, u, v. auto.
  - intros (x & y & u & v & -> & -> & G & H). exists (x, y). split; [reflexivity|]. exists u, v. auto.
Qed.
Lemma d_opt A (g : bnf A) o ts :
  derives (opt g) o ts <-> (o = None /\ ts = []) \/ exists x, o = Some x /\ derives g x ts.
Proof.
  unfold opt, none. rewrite d_Or, !d_Val. cbn. split; intros [H|H]; auto.
  - left. destruct H as (_ & E & F). auto.
  - left. exists tt. exact H.
Qed.

(** a | a b *)
Lemma factor_opt A B C (f : A -> C) (h : A -> B -> C) g k :
  same (Or (Val f g) (seq h g k)) (seq (fun x o => match o with None => f x | Some y => h x y end) g (opt k)).
Proof.
  intros a ts. rewrite d_Or, d_Val, !d_seq. split.
  - intros [(x & -> & G)|(x & y & u & v & -> & -> & G & K)].
    + exists x, None, ts, []. rewrite app_nil_r, d_opt. fin.
    + exists x, (Some y), u, v. rewrite d_opt. fin.
  - intros (x & o & u & v & -> & -> & G & K). apply d_opt in K. destruct K as [(-> & ->)|(y & -> & K)].
    + left. exists x. rewrite app_nil_r. auto.
    + right. exists x, y, u, v. fin.
Qed.
(** a b | a c *)
Lemma factor_or A B B' C (f : A -> B -> C) (f' : A -> B' -> C) g h h' :
  same (Or (seq f g h) (seq f' g h'))
       (seq (fun x o => match o with inl y => f x y | inr y => f' x y end) g (Or (Val inl h) (Val inr h'))).
Proof.
  intros a ts. rewrite d_Or, !d_seq. split.
  - intros [(x & y & u & v & -> & -> & G & K)|(x & y & u & v & -> & -> & G & K)].
    + exists x, (inl y), u, v. rewrite d_Or, !d_Val. fin.
    + exists x, (inr y), u, v. rewrite d_Or, !d_Val. fin.
  - intros (x & o & u & v & -> & -> & G & K). rewrite d_Or, !d_Val in K. destruct K as [(y & -> & K)|(y & -> & K)].
    + left. exists x, y, u, v. fin.
    + right. exists x, y, u, v. fin.
Qed.
Lemma same_id A (g : bnf A) : same g (Val (fun x => x) g).
Proof. intros a ts. rewrite d_Val. split; [eauto|]. intros (x & -> & H). exact H. Qed.

Local Open Scope string_scope.
Definition f_intervals : bnf intervals :=
  let lat := key "LAT_GRID_INTERVAL" Expr in
  let lon := key "LON_GRID_INTERVAL" Expr in
  Or (Val both_intervals (key "GRID_INTERVAL" Expr))
  (Or (seq (fun x o => match o with None => lat_interval x | Some y => lat_lon_interval x y end) lat (opt lon))
      (seq (fun x o => match o with None => lon_interval x | Some y => lon_lat_interval x y end) lon (opt lat))).
Lemma intervals_same : same g_intervals f_intervals.
Proof.
  intros a ts. unfold g_intervals, f_intervals. cbv zeta. rewrite !d_Or.
  rewrite <- (factor_opt _ _ _ lat_interval _ _ _ a ts), <- (factor_opt _ _ _ lon_interval _ _ _ a ts), !d_Or. tauto.
Qed.

Definition f_grid : bnf (option (bool * option intervals)) :=
  Or none (seq (fun b o => match o with None => Some (b, None) | Some i => Some (b, Some i) end) (key "GRID" yes_no) (opt f_intervals)).
Lemma grid_same : same g_grid f_grid.
Proof.
  unfold g_grid, f_grid. cbv zeta. apply same_Or; [apply same_refl|]. eapply same_trans; [apply factor_opt|].
  apply same_seq; [apply same_refl|]. apply same_opt, intervals_same.
Qed.

Definition f_data_range : bnf data_range :=
  let mi := key "DATA_MIN" Expr in
  let ma := key "DATA_MAX" Expr in
  Or (Val (fun _ => no_range) Empty)
  (Or (seq (fun x o => match o with None => min_only x | Some y => min_max x y end) mi (opt ma))
      (seq (fun x o => match o with None => max_only x | Some y => max_min x y end) ma (opt mi))).
Lemma data_range_same : same g_data_range f_data_range.
Proof.
  intros a ts. unfold g_data_range, f_data_range. cbv zeta. rewrite !d_Or.
  rewrite <- (factor_opt _ _ _ min_only _ _ _ a ts), <- (factor_opt _ _ _ max_only _ _ _ a ts), !d_Or. tauto.
Qed.

Definition f_either (a b : bnf (side * number)) : bnf nibbling :=
  Or (seq (fun x o => match o with None => [x] | Some y => [x; y] end) a (opt b))
     (seq (fun x o => match o with None => [x] | Some y => [x; y] end) b (opt a)).
Lemma either_same a b : same (g_either a b) (f_either a b).
Proof.
  intros l ts. unfold g_either, f_either. rewrite !d_Or.
  rewrite <- (factor_opt _ _ _ (fun x => [x]) _ a _ l ts), <- (factor_opt _ _ _ (fun x => [x]) _ b _ l ts), !d_Or. tauto.
Qed.
Definition f_nibble_samples : bnf nibbling := f_either (g_side "NIBBLE_LEFT" left_side) (g_side "NIBBLE_RIGHT" right_side).
Definition f_nibble_lines : bnf nibbling := f_either (g_side "NIBBLE_TOP" top_side) (g_side "NIBBLE_BOTTOM" bottom_side).
Definition f_nibbling : bnf nibbling :=
  Or (Val (fun _ => []) Empty)
  (Or (Val (fun x => [x]) (g_side "NIBBLE" all_sides))
  (Or (seq (fun l o => match o with None => l | Some k => (l ++ k)%list end) f_nibble_samples (opt f_nibble_lines))
      (seq (fun l o => match o with None => l | Some k => (l ++ k)%list end) f_nibble_lines (opt f_nibble_samples)))).
Lemma nibbling_same : same g_nibbling f_nibbling.
Proof.
  eapply same_trans.
  - unfold g_nibbling. apply same_Or; [apply same_refl|]. apply same_Or; [apply same_refl|].
    apply same_Or; [eapply same_trans; [apply either_same|apply same_id]|].
    apply same_Or; [eapply same_trans; [apply either_same|apply same_id]|].
    apply same_Or; apply same_seq; apply either_same.
  - intros l ts. unfold f_nibbling. rewrite !d_Or.
    fold f_nibble_samples f_nibble_lines.
    rewrite <- (factor_opt _ _ _ (fun x => x) _ f_nibble_samples _ l ts),
      <- (factor_opt _ _ _ (fun x => x) _ f_nibble_lines _ l ts), !d_Or. tauto.
Qed.

Definition f_user : bnf user_entry :=
  seq (fun i r => UserEntry i (fst r) (snd r)) f_intervals (seq pair f_data_range f_nibbling).
Lemma user_same : same g_user f_user.
Proof.
  apply same_seq; [apply intervals_same|]. apply same_seq; [apply data_range_same|apply nibbling_same].
Qed.

Definition f_image : bnf image_entry :=
  Val (fun '(file, (nib, (inv, (int, (sky, (cen, (axis, (flat, (_, (geom, (emi, (term, (obs, (pos, (sol, (ran, sc)))))))))))))))) =>
         ImageEntry file nib inv int sky cen axis flat geom emi term obs pos sol ran sc)
    (Seq (key "IMAGE" Str)
    (Seq f_nibbling
    (Seq g_inversion
    (Seq (opt (key "INTERPOLATE" yes_no))
    (Seq (opt (key "REMOVE_SKY" yes_no))
    (Seq g_centers
    (Seq g_optical_axis
    (Seq (opt (key "FLAT_FIELD" Str))
    (Seq g_photo_correct
    (Seq (opt (key "GEOM_CORRECT" yes_no))
    (Seq (opt (key "EMI_ANG_LIMIT" Expr))
    (Seq (opt (key "TERMINATOR" yes_no))
    (Seq g_sub_observ
    (Seq g_position_angle
    (Seq g_sub_solar
    (Seq g_range
         g_scale)))))))))))))))).
Lemma image_same : same g_image f_image.
Proof.
  unfold g_image, f_image. apply same_Val. apply same_Seq; [apply same_refl|]. apply same_Seq; [apply nibbling_same|apply same_refl].
Qed.

Definition f_mu : bnf plane_type :=
  key "MU" (seq (fun o r => T_mu o (fst r) (snd r)) g_sub_observ (Seq g_range (opt g_sub_solar))).
Lemma mu_same :
  same (key "MU" (Or (seq (fun o r => T_mu o r None) g_sub_observ g_range)
                     (seq (fun o r => T_mu o (fst r) (Some (snd r))) g_sub_observ (Seq g_range g_sub_solar)))) f_mu.
Proof.
  apply same_key. intros a ts. rewrite d_Or, !d_seq. split.
  - intros [(o & r & u & v & -> & -> & G & H)|(o & [r s] & u & v & -> & -> & G & H)].
    + exists o, (r, None), u, v. split; [reflexivity|split; [reflexivity|split; [exact G|]]].
      rewrite d_Seq. exists v, []. rewrite app_nil_r, d_opt. cbn [fst snd]. auto.
    + exists o, (r, Some s), u, v. split; [reflexivity|split; [reflexivity|split; [exact G|]]].
      rewrite d_Seq in *. destruct H as (w & x & -> & H1 & H2). exists w, x. rewrite d_opt. cbn [fst snd] in *. eauto 8.
  - intros (o & [r s] & u & v & -> & -> & G & H). rewrite d_Seq in H. destruct H as (w & x & -> & H1 & H2).
    apply d_opt in H2. cbn [fst snd] in *. destruct H2 as [(-> & ->)|(y & -> & H2)].
    + left. exists o, r, u, w. rewrite app_nil_r. auto.
    + right. exists o, (r, y), u, (w ++ x)%list. split; [reflexivity|split; [reflexivity|split; [exact G|]]].
      rewrite d_Seq. exists w, x. auto.
Qed.
Definition f_plane_type : bnf plane_type :=
  Or (seq T_image f_image (Many f_image))
  (Or f_mu
  (Or (key "MU0" (Or (Val (T_mu0 None) g_sub_solar)
                     (seq (fun o r => T_mu0 (Some (o, fst r)) (snd r)) g_sub_observ (Seq g_range g_sub_solar))))
  (Or (key "PHASE" (seq (fun o r => T_phase o (fst r) (snd r)) g_sub_observ (Seq g_range g_sub_solar)))
  (Or (key "LATITUDE" (Val T_latitude g_lat_type))
      (word "LONGITUDE" T_longitude))))).
Definition f_plane : bnf plane_entry :=
  seq (fun n r => PlaneEntry n (fst r) (snd r)) (key "PLANE" (opt Text_Model.Num)) (Seq f_data_range f_plane_type).
Lemma plane_same : same g_plane f_plane.
Proof.
  apply same_seq; [apply same_refl|]. apply same_Seq; [apply data_range_same|]. unfold g_plane_type, f_plane_type.
  apply same_Or; [apply same_seq; [apply image_same|apply same_Many, image_same]|].
  apply same_Or; [apply mu_same|apply same_refl].
Qed.

Definition f_ortho_optsub : bnf ortho_options :=
  Or (Val (fun _ => OrthoOptions None None None None) Empty)
  (Or (seq (fun o r => match r with
                       | None => OrthoOptions (Some o) None None None
                       | Some (p, None) => OrthoOptions (Some o) (Some p) None None
                       | Some (p, Some (k, c)) => OrthoOptions (Some o) (Some p) (Some k) c
                       end) g_sub_observ (opt (Seq g_position_angle (opt (Seq g_km_per_pixel (opt g_centers))))))
  (Or (Val (fun p => OrthoOptions None (Some p) None None) g_position_angle)
  (Or (Val (fun k => OrthoOptions None None (Some k) None) g_km_per_pixel)
      (Val (fun c => OrthoOptions None None None (Some c)) g_centers)))).
Lemma ortho_optsub_same : same g_ortho_optsub f_ortho_optsub.
Proof.
  intros a ts. unfold g_ortho_optsub, f_ortho_optsub.
  generalize g_sub_observ g_position_angle g_km_per_pixel g_centers. intros go gp gk gc.
  rewrite !d_Or. rewrite !d_seq, !d_Val. split.
  - intros [H|[(o & -> & H)|[H|[H|[H|[H|[H|H]]]]]]]; auto 8.
    + right. left. exists o, None, ts, []. rewrite app_nil_r, d_opt. fin.
    + destruct H as (o & p & u & v & -> & -> & G & H). right. left. exists o, (Some (p, None)), u, v.
      split; [reflexivity|split; [reflexivity|split; [exact G|]]]. rewrite d_opt. right. eexists. split; [reflexivity|].
      rewrite d_Seq. exists v, []. rewrite app_nil_r, d_opt. cbn [fst snd]. auto.
    + destruct H as (o & [p k] & u & v & -> & -> & G & H). right. left. exists o, (Some (p, Some (k, None))), u, v.
      split; [reflexivity|split; [reflexivity|split; [exact G|]]]. rewrite d_opt. right. eexists. split; [reflexivity|].
      rewrite d_Seq in *. destruct H as (w & x & -> & H1 & H2). exists w, x. split; [reflexivity|split; [exact H1|]].
      rewrite d_opt. right. eexists. split; [reflexivity|]. rewrite d_Seq. exists x, []. rewrite app_nil_r, d_opt. cbn [fst snd] in *. auto.
    + destruct H as (o & [p [k c]] & u & v & -> & -> & G & H). right. left. exists o, (Some (p, Some (k, Some c))), u, v.
      split; [reflexivity|split; [reflexivity|split; [exact G|]]]. rewrite d_opt. right. eexists. split; [reflexivity|].
      rewrite !d_Seq in *. destruct H as (w & x & -> & H1 & H2). exists w, x. split; [reflexivity|split; [exact H1|]].
      rewrite d_opt. right. eexists. split; [reflexivity|]. cbn [fst snd] in *. rewrite d_Seq in *.
      destruct H2 as (y & z & -> & H2 & H3). exists y, z. split; [reflexivity|split; [exact H2|]]. rewrite d_opt. cbn [fst snd] in *. eauto.
  - intros [H|[(o & r & u & v & -> & -> & G & H)|[H|[H|H]]]]; auto 8.
    apply d_opt in H. destruct H as [(-> & ->)|([p r'] & -> & H)].
    + right. left. exists o. rewrite app_nil_r. auto.
    + rewrite d_Seq in H. destruct H as (w & x & -> & H1 & H2). cbn [fst snd] in *. apply d_opt in H2.
      destruct H2 as [(-> & ->)|([k c] & -> & H2)].
      * do 5 right. left. exists o, p, u, w. rewrite app_nil_r. auto.
      * rewrite d_Seq in H2. destruct H2 as (y & z & -> & H2 & H3). cbn [fst snd] in *. apply d_opt in H3.
        destruct H3 as [(-> & ->)|(c' & -> & H3)].
        -- do 6 right. left. exists o, (p, k), u, (w ++ y)%list. rewrite app_nil_r.
           split; [reflexivity|split; [reflexivity|split; [exact G|]]]. rewrite d_Seq. exists w, y. auto.
        -- do 7 right. exists o, (p, (k, c')), u, (w ++ y ++ z)%list.
           split; [reflexivity|split; [reflexivity|split; [exact G|]]]. rewrite d_Seq. exists w, (y ++ z)%list.
           split; [reflexivity|split; [exact H1|]]. cbn [fst snd]. rewrite d_Seq. exists y, z. auto.
Qed.

Definition f_latlonrange : bnf (option lat_range * option lon_range) :=
  Or (Val (fun _ => (None, None)) Empty)
  (Or (seq (fun a o => match o with None => (Some a, None) | Some o => (Some a, Some o) end) g_lat_range (opt g_lon_range))
      (seq (fun o a => match a with None => (None, Some o) | Some a => (Some a, Some o) end) g_lon_range (opt g_lat_range))).
Lemma latlonrange_same : same g_latlonrange f_latlonrange.
Proof.
  intros a ts. unfold g_latlonrange, f_latlonrange. rewrite !d_Or.
  rewrite <- (factor_opt _ _ _ (fun a => (Some a, None)) _ g_lat_range _ a ts),
    <- (factor_opt _ _ _ (fun o => (None, Some o)) (fun o a => (Some a, Some o)) g_lon_range _ a ts), !d_Or. tauto.
Qed.

Definition f_projection : bnf projection_entry :=
  key "TYPE" (Or (seq (fun _ p => p) (Tok "MERCATOR") g_mercator)
             (Or (seq (fun _ p => p) (Tok "ORTHO") (Val T_ortho (opt (Seq g_options f_ortho_optsub))))
             (Or (seq (fun _ p => p) (Tok "P_STEREO") g_p_stereo)
                 (seq (fun _ p => p) (Tok "SIMPLE_C")
                    (Val T_simple_c (opt (seq (fun o p => (o, fst p, fst (snd p), snd (snd p))) g_options
                                            (Seq g_lat_type f_latlonrange)))))))).
Lemma projection_same : same g_projection f_projection.
Proof.
  apply same_key. apply same_Or; [apply same_refl|]. apply same_Or.
  - apply same_seq; [apply same_refl|]. apply same_Val, same_opt, same_Seq; [apply same_refl|apply ortho_optsub_same].
  - apply same_Or; [apply same_refl|]. apply same_seq; [apply same_refl|]. apply same_Val, same_opt, same_seq;
      [apply same_refl|]. apply same_Seq; [apply same_refl|apply latlonrange_same].
Qed.

Definition f_radii : bnf (radii_entry ar_double) :=
  let eq := key "EQ_RAD" Expr in
  let pol := key "POL_RAD" Expr in
  let flat := key "FLATTENING" Expr in
  let given_radii (a b : double) := given_radii (A := ar_double) a b in
  let given_eq (a b : double) := given_eq (A := ar_double) a b in
  let given_pol (a b : double) := given_pol (A := ar_double) a b in
  Or (seq (fun x o => match o with inl y => given_radii x y | inr y => given_eq x y end) eq (Or (Val inl pol) (Val inr flat)))
  (Or (seq (fun x o => match o with inl y => given_radii y x | inr y => given_pol x y end) pol (Or (Val inl eq) (Val inr flat)))
      (seq (fun x o => match o with inl y => given_eq y x | inr y => given_pol y x end) flat (Or (Val inl eq) (Val inr pol)))).
Lemma radii_same : same g_radii f_radii.
Proof.
  intros a ts. unfold g_radii, f_radii. cbv zeta. rewrite !d_Or.
  rewrite <- (factor_or _ _ _ _ (fun a b => given_radii (A := ar_double) a b) (fun a b => given_eq (A := ar_double) a b) _ _ _ a ts),
    <- (factor_or _ _ _ _ (fun b a => given_radii (A := ar_double) a b) (fun a b => given_pol (A := ar_double) a b) _ _ _ a ts),
    <- (factor_or _ _ _ _ (fun b a => given_eq (A := ar_double) a b) (fun b a => given_pol (A := ar_double) a b) _ _ _ a ts), !d_Or.
  tauto.
Qed.

Definition f_map : bnf map_entry :=
  Val (fun '(file, (author, (origin, (comm, (xcomm, ((name, (radii, prograde)), (off, (sc, (type, (blank, (grid,
              (proj, (planes, (samples, (lines, (p, ps)))))))))))))))) =>
         MapEntry file author origin comm xcomm name radii prograde off sc type blank grid proj planes samples lines p ps)
    (Seq (key "MAP" Str)
    (Seq (opt (key "AUTHOR" Str))
    (Seq (opt (key "ORIGIN" Str))
    (Seq (Many (key "COMMENT" Str))
    (Seq (Many (key "XCOMMENT" Str))
    (Seq (Seq (key "BODY" Str) (Seq f_radii (key "ROTATION" (Or (word "PROGRADE" true) (word "RETROGRADE" false)))))
    (Seq (opt (key "DATA_OFFSET" Expr))
    (Seq (opt (key "DATA_SCALE" Expr))
    (Seq g_data_type
    (Seq (opt (key "DATA_BLANK" Text_Model.Num))
    (Seq f_grid
    (Seq f_projection
    (Seq (opt (key "PLANES" Text_Model.Num))
    (Seq (key "SAMPLES" Text_Model.Num)
    (Seq (key "LINES" Text_Model.Num)
    (Seq f_plane
         (Many f_plane))))))))))))))))).
Lemma map_same : same g_map f_map.
Proof.
  apply same_Val. do 5 (apply same_Seq; [apply same_refl|]).
  apply same_Seq; [apply same_Seq; [apply same_refl|apply same_Seq; [apply radii_same|apply same_refl]]|].
  do 4 (apply same_Seq; [apply same_refl|]).
  apply same_Seq; [apply grid_same|]. apply same_Seq; [apply projection_same|].
  do 3 (apply same_Seq; [apply same_refl|]).
  apply same_Seq; [apply plane_same|apply same_Many, plane_same].
Qed.
Definition f_file : bnf input_text := Or (seq map_text f_map (Many f_map)) (Val user_text f_user).
Lemma file_same : same g_file f_file.
Proof.
  apply same_Or; [apply same_seq; [apply map_same|apply same_Many, map_same]|apply same_Val, user_same].
Qed.

Lemma file_good : good f_file = true.
Proof. vm_compute. reflexivity. Qed.

(** The parser for files. *)
Definition parse_file (ts : list tok) : option input_text :=
  match parse f_file ts with Some (t, []) => Some t | _ => None end.
Theorem parse_file_iff t ts : derives g_file t ts <-> parse_file ts = Some t.
Proof.
  rewrite (file_same t ts). unfold parse_file. split.
  - intro D. pose proof (parse_complete _ f_file file_good t ts [] D I) as P. rewrite app_nil_r in P. rewrite P. reflexivity.
  - destruct (parse f_file ts) as [[x [|y r]]|] eqn:P; try discriminate. intro E. injection E as ->.
    destruct (parse_sound _ _ _ _ _ P) as (u & -> & D). rewrite app_nil_r. exact D.
Qed.
Corollary file_unique t t' ts : derives g_file t ts -> derives g_file t' ts -> t = t'.
Proof. intros D E. apply parse_file_iff in D, E. congruence. Qed.
End Parser.
