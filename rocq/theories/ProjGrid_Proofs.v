(** Proofs about the grids of the cylindrical and polar projections (C49). *)
From Coq Require Import List ZArith Reals Lra Lia Bool.
From Flocq Require Import Core BinarySingleNaN.
From Verif Require Import Base BaseFacts Flt FltFacts Num Maths_Model Maths_Spec Maths_Proofs Spheroid_Model
  Spheroid_Proofs Proj_Model Proj_Spec Proj_Proofs.
Import ListNotations.
Open Scope Z_scope.

(** * Painting *)
(** [g'] is [g] with the cells of [S] white. *)
Definition painted (g g' : list Z) (S : Z -> Prop) : Prop :=
  length g' = length g /\
  forall j, 0 <= j < Z.of_nat (length g) ->
    (S j -> nth_error g' (Z.to_nat j) = Some 255) /\
    (~ S j -> nth_error g' (Z.to_nat j) = nth_error g (Z.to_nat j)).

Lemma painted_none g S : (forall j, 0 <= j < Z.of_nat (length g) -> ~ S j) -> painted g g S.
Proof. intros H. split; [reflexivity|]. intros j Hj. split; [intros Sj; destruct (H j Hj Sj)|reflexivity]. Qed.

Lemma painted_union g g' g'' S S' T : painted g g' S -> painted g' g'' S' ->
  (forall j, 0 <= j < Z.of_nat (length g) -> {S' j} + {~ S' j}) ->
  (forall j, 0 <= j < Z.of_nat (length g) -> (T j <-> S j \/ S' j)) -> painted g g'' T.
Proof.
  intros [L H] [L' H'] Dec HT. split; [congruence|]. intros j Hj. 
  destruct (H j Hj) as [H1 H2]. destruct (H' j) as [H3 H4]; [lia|]. 
  rewrite (HT j Hj). split.
  - intros [Sj|Sj]; [|apply H3; exact Sj]. destruct (Dec j Hj) as [D|D]; [apply H3; exact D|].
    rewrite (H4 D). apply H1. exact Sj.
  - intros N. rewrite H4 by tauto. apply H2. tauto.
Qed.

Lemma put_painted g i : 0 <= i < Z.of_nat (length g) ->
  exists g', put g i = Ok g' /\ painted g g' (fun j => j = i).
Proof.
  intros H. unfold put. destruct (Z.leb_spec 0 i); [|lia]. destruct (Z.ltb_spec i (Z.of_nat (length g))); [|lia].
  cbn [andb]. eexists. split; [reflexivity|]. split; [apply upd_length|]. intros j Hj. split.
  - intros ->. apply upd_same. lia.
  - intros N. apply upd_other. lia.
Qed.

Lemma fill_row_painted n : forall first g, 0 <= first -> first + Z.of_nat n <= Z.of_nat (length g) ->
  exists g', fill_row n first g = Ok g' /\ painted g g' (fun j => first <= j < first + Z.of_nat n).
Proof.
  induction n as [|n IH]; intros first g H1 H2.
  - exists g. split; [reflexivity|]. apply painted_none. lia.
  - cbn [fill_row]. destruct (put_painted g first) as (g1 & E1 & P1); [lia|]. rewrite E1. cbn [bind].
    assert (Len : length g1 = length g) by apply P1.
    destruct (IH (first + 1) g1) as (g2 & E2 & P2); [lia|lia|]. exists g2. split; [exact E2|].
    apply (painted_union _ _ _ _ _ _ P1 P2).
    + intros j Hj. destruct (Z_le_dec (first + 1) j), (Z_lt_dec j (first + 1 + Z.of_nat n)); [left; lia|right; lia..].
    + intros j Hj. lia.
Qed.

Lemma fill_column_painted n : forall samples i k g, 0 <= k -> 0 <= i < samples ->
  (k + Z.of_nat n) * samples <= Z.of_nat (length g) -> Z.of_nat (length g) < size_mod ->
  exists g', fill_column n samples i k g = Ok g' /\
    painted g g' (fun j => exists k', k <= k' < k + Z.of_nat n /\ j = k' * samples + i).
Proof.
  induction n as [|n IH]; intros samples i k g Hk Hi Hn Hg.
  - exists g. split; [reflexivity|]. apply painted_none. intros j _ (k' & Hk' & _). lia.
  - cbn [fill_column]. rewrite wrap_id by nia.
    destruct (put_painted g (k * samples + i)) as (g1 & E1 & P1); [nia|]. rewrite E1. cbn [bind].
    assert (Len : length g1 = length g) by apply P1.
    destruct (IH samples i (k + 1) g1) as (g2 & E2 & P2); [lia|lia|lia|lia|]. exists g2. split; [exact E2|].
    apply (painted_union _ _ _ _ _ _ P1 P2).
    + intros j Hj. set (k' := (j - i) / samples).
      destruct (Z.eq_dec j (k' * samples + i)) as [E|N].
      * destruct (Z_le_dec (k + 1) k'), (Z_lt_dec k' (k + 1 + Z.of_nat n)).
        -- left. exists k'. lia.
        -- right. intros (q & Hq & Eq). assert (q = k') by nia. lia.
        -- right. intros (q & Hq & Eq). assert (q = k') by nia. lia.
        -- right. intros (q & Hq & Eq). assert (q = k') by nia. lia.
      * right. intros (q & Hq & Eq). apply N. unfold k'. rewrite Eq.
        replace (q * samples + i - i) with (q * samples) by ring. rewrite Z.div_mul by lia. reflexivity.
    + intros j Hj. split.
      * intros (k' & Hk' & ->). destruct (Z.eq_dec k' k) as [->|N]; [left; reflexivity|right; exists k'; lia].
      * intros [->|(k' & Hk' & ->)]; [exists k; lia|exists k'; lia].
Qed.

(** * Invariants of the loops *)
Section ForLoop.
Context {V G : Type} (test : V -> bool) (next : V -> V) (body : V -> G -> outcome G).

Lemma for_loop_inv (I : G -> Prop) (Bad : outcome G -> Prop) :
  (forall v g, test v = true -> I g -> match body v g with Ok g' => I g' | e => Bad e end) ->
  forall fuel v g, I g ->
  match for_loop fuel test next body v g with
  | None => True | Some (Ok g') => I g' | Some e => Bad e
  end.
Proof.
  intros H. induction fuel as [|n IH]; intros v g Hg; [exact Logic.I|].
  cbn [for_loop]. destruct (test v) eqn:T; [|exact Hg].
  specialize (H v g T Hg). destruct (body v g) as [g'|e|u]; [apply IH; exact H|exact H|exact H].
Qed.

(** A loop whose counter does not change never ends. *)
Lemma for_loop_stuck (I : G -> Prop) v : test v = true -> next v = v ->
  (forall g, I g -> exists g', body v g = Ok g' /\ I g') ->
  forall fuel g, I g -> for_loop fuel test next body v g = None.
Proof.
  intros T N H. induction fuel as [|n IH]; intros g Hg; [reflexivity|].
  cbn [for_loop]. rewrite T, N. destruct (H g Hg) as (g' & -> & Hg'). apply IH. exact Hg'.
Qed.

Lemma for_loop_more fuel fuel' : (fuel <= fuel')%nat -> forall v g x,
  for_loop fuel test next body v g = Some x -> for_loop fuel' test next body v g = Some x.
Proof.
  intros H. revert fuel' H. induction fuel as [|n IH]; intros fuel' H v g x E; [discriminate|].
  destruct fuel' as [|n']; [lia|]. cbn [for_loop] in *. destruct (test v); [|exact E].
  destruct (body v g); [apply IH; [lia|exact E]|exact E|exact E].
Qed.
End ForLoop.

(** A loop with N iterations that paints. *)
Lemma for_loop_paints {V} (test : V -> bool) (next : V -> V) (body : V -> list Z -> outcome (list Z))
    (v : Z -> V) (N len : Z) (S : Z -> Z -> Prop) :
  0 <= N -> (forall j, 0 <= j <= N -> test (v j) = (j <? N)) -> (forall j, 0 <= j < N -> next (v j) = v (j + 1)) ->
  (forall j q, {S j q} + {~ S j q}) ->
  (forall j g, 0 <= j < N -> Z.of_nat (length g) = len -> exists g', body (v j) g = Ok g' /\ painted g g' (S j)) ->
  forall fuel g, Z.of_nat fuel > N -> Z.of_nat (length g) = len ->
  exists g', for_loop fuel test next body (v 0) g = Some (Ok g') /\
    painted g g' (fun q => exists j, 0 <= j < N /\ S j q).
Proof.
  intros HN HT Hnext Dec Hbody fuel g Hf Hlen.
  assert (G : forall n j g fuel, 0 <= j -> Z.of_nat n = N - j -> (n < fuel)%nat -> Z.of_nat (length g) = len ->
    exists g', for_loop fuel test next body (v j) g = Some (Ok g') /\
      painted g g' (fun q => exists j', j <= j' < N /\ S j' q)).
  { clear fuel g Hf Hlen. induction n as [|n IH]; intros j g fuel Hj En Hf Hlen.
    - destruct fuel as [|fuel]; [lia|]. cbn [for_loop]. rewrite HT by lia.
      destruct (Z.ltb_spec j N); [lia|]. exists g. split; [reflexivity|]. apply painted_none. intros q _ (j' & H' & _). lia.
    - destruct fuel as [|fuel]; [lia|]. cbn [for_loop]. rewrite HT by lia.
      destruct (Z.ltb_spec j N); [|lia]. destruct (Hbody j g) as (g1 & E1 & P1); [lia|exact Hlen|].
      rewrite E1, Hnext by lia.
      destruct (IH (j + 1) g1 fuel) as (g2 & E2 & P2); [lia|lia|lia|destruct P1 as [-> _]; exact Hlen|].
      exists g2. split; [exact E2|]. apply (painted_union _ _ _ _ _ _ P1 P2).
      + intros q Hq. clear - Dec. 
        assert (X : forall m, {exists j', j + 1 <= j' < j + 1 + Z.of_nat m /\ S j' q} + {~ exists j', j + 1 <= j' < j + 1 + Z.of_nat m /\ S j' q}).
        { induction m as [|m IHm]; [right; intros (j' & H' & _); lia|].
          destruct IHm as [Y|Y]; [left; destruct Y as (j' & H' & Sj); exists j'; split; [lia|exact Sj]|].
          destruct (Dec (j + 1 + Z.of_nat m) q) as [D|D]; [left; eexists; split; [|exact D]; lia|].
          right. intros (j' & H' & Sj). destruct (Z.eq_dec j' (j + 1 + Z.of_nat m)) as [->|Ne]; [auto|].
          apply Y. exists j'. split; [lia|exact Sj]. }
        destruct (X (Z.to_nat (N - (j + 1)))) as [Y|Y].
        * destruct (Z_le_dec (j + 1) N).
          -- left. destruct Y as (j' & H' & Sj). exists j'. split; [lia|exact Sj].
          -- right. intros (j' & H' & Sj). lia.
        * right. intros (j' & H' & Sj). apply Y. exists j'. split; [lia|exact Sj].
      + intros q Hq. split.
        * intros (j' & H' & Sj). destruct (Z.eq_dec j' j) as [->|Ne]; [left; exact Sj|].
          right. exists j'. split; [lia|exact Sj].
        * intros [Sj|(j' & H' & Sj)]; [exists j; split; [lia|exact Sj]|exists j'; split; [lia|exact Sj]]. }
  destruct (G (Z.to_nat N) 0 g fuel) as (g' & E & P); [lia|lia|lia|exact Hlen|]. exists g'. auto.
Qed.

Lemma for_loop_paint {V} (test : V -> bool) (next : V -> V) (body : V -> list Z -> outcome (list Z))
    (v : Z -> V) (N len : Z) (S : Z -> Z -> Prop) :
  0 <= N -> (forall j, 0 <= j -> test (v j) = (j <? N)) -> (forall j, 0 <= j -> next (v j) = v (j + 1)) ->
  (forall j q, {S j q} + {~ S j q}) ->
  (forall j g, 0 <= j < N -> Z.of_nat (length g) = len -> exists g', body (v j) g = Ok g' /\ painted g g' (S j)) ->
  forall fuel g, Z.of_nat fuel > N -> Z.of_nat (length g) = len ->
  exists g', for_loop fuel test next body (v 0) g = Some (Ok g') /\
    painted g g' (fun q => exists j, 0 <= j < N /\ S j q).
Proof.
  intros HN HT Hnext. apply for_loop_paints; [exact HN| |]; intros j Hj; [apply HT|apply Hnext]; lia.
Qed.

(** * Safety, for any arithmetic *)
Lemma upd_In {T} (l : list T) n x v : In v (upd l n x) -> v = x \/ In v l.
Proof.
  revert n. induction l as [|h t IH]; intros [|n]; cbn [upd In]; auto.
  - intros [->|H]; auto.
  - intros [->|H]; auto. destruct (IH n H); auto.
Qed.

Lemma put_bw n g i : 0 <= i < n -> black_or_white n g -> exists g', put g i = Ok g' /\ black_or_white n g'.
Proof.
  intros Hi [Hl Hv]. destruct (put_painted g i) as (g' & E & P); [lia|]. exists g'. split; [exact E|].
  split; [destruct P as [-> _]; exact Hl|]. intros v Hin.
  unfold put in E. destruct ((0 <=? i) && (i <? Z.of_nat (length g))); [|discriminate].
  injection E as <-. destruct (upd_In _ _ _ _ Hin); auto.
Qed.

Lemma fill_row_bw n m : forall first g, 0 <= first -> first + Z.of_nat m <= n -> black_or_white n g ->
  exists g', fill_row m first g = Ok g' /\ black_or_white n g'.
Proof.
  induction m as [|m IH]; intros first g H1 H2 B; [exists g; auto|]. cbn [fill_row].
  destruct (put_bw n g first) as (g1 & -> & B1); [lia|exact B|]. apply IH; [lia|lia|exact B1].
Qed.

Lemma fill_column_bw n m : forall samples i k g, 0 <= k -> 0 <= i < samples -> (k + Z.of_nat m) * samples <= n ->
  n < size_mod -> black_or_white n g -> exists g', fill_column m samples i k g = Ok g' /\ black_or_white n g'.
Proof.
  induction m as [|m IH]; intros samples i k g H1 H2 H3 H4 B; [exists g; auto|]. cbn [fill_column].
  rewrite wrap_id by nia. destruct (put_bw n g (k * samples + i)) as (g1 & -> & B1); [nia|exact B|].
  apply IH; [lia|lia|lia|lia|exact B1].
Qed.

(** Rounded coordinates inside the grid convert exactly. *)
Definition gridded {A : arith} (L : libm A) (n : Z) : Prop := forall x : A,
  a_le A (a_of_Z A 0) (l_round L x) = true -> a_lt A (l_round L x) (a_of_Z A n) = true ->
  exists z, 0 <= z < n /\ a_size A (l_round L x) = Ok z.
Definition row_starts {A : arith} (L : libm A) (lines samples : Z) : Prop := forall x : A,
  a_le A (a_of_Z A 0) (l_round L x) = true -> a_lt A (l_round L x) (a_of_Z A lines) = true ->
  exists z, 0 <= z < lines /\ a_size A (a_mul A (l_round L x) (a_of_Z A samples)) = Ok (z * samples).

(** Sizes are converted without undefined behaviour other than overflow. *)
Definition converts (A : arith) : Prop := forall x : A,
  match a_size A x with Ok z => 0 <= z < size_mod | Throw _ => False | UB u => u = ub_conversion end.

Definition drawn (n : Z) (r : option (outcome (list Z))) : Prop :=
  match r with
  | None => True
  | Some (Ok g) => black_or_white n g
  | Some (UB u) => u = ub_conversion
  | Some (Throw _) => False
  end.

Section Safety.
Context {A : arith} (L : libm A) (samples lines : Z).
Hypothesis Hmap : map_size samples lines.
Local Notation n := (samples * lines).

Lemma latitude_safe (Hl : row_starts L lines samples) fuel interval ordinate g : black_or_white n g ->
  match latitude_lines L fuel samples lines interval ordinate g with
  | None => True | Some (Ok g') => black_or_white n g' | Some _ => False end.
Proof.
  destruct Hmap as (S0 & L0 & Hn). apply for_loop_inv with (Bad := fun _ => False). intros v g' _ B.
  unfold draw_latitude.
  destruct (a_le A (a_of_Z A 0) (l_round L (ordinate v))) eqn:E1; [|exact B].
  destruct (a_lt A (l_round L (ordinate v)) (a_of_Z A lines)) eqn:E2; [|exact B]. cbn [andb].
  destruct (Hl (ordinate v) E1 E2) as (z & Hz & ->). cbn [bind].
  destruct (fill_row_bw n (Z.to_nat samples) (z * samples) g') as (g1 & -> & B1); [nia|nia|exact B|exact B1].
Qed.

Lemma longitude_safe (Hc : converts A) fuel prograde interval abscissa g : black_or_white n g ->
  drawn n (longitude_lines L fuel prograde samples lines interval abscissa g).
Proof.
  destruct Hmap as (S0 & L0 & Hn). intros B.
  pose proof (for_loop_inv (fun m => a_lt A (a_of_Z A 0) m) (fun m => a_sub A m interval)
    (draw_longitude L prograde samples lines abscissa) (black_or_white n)
    (fun e => e = UB ub_conversion)) as H.
  refine (_ (H _ fuel (a_of_Z A 360) g B)).
  - unfold longitude_lines, drawn. destruct (for_loop _ _ _ _ _ _) as [[?|?|?]|]; intros X; auto; congruence.
  - intros v g' _ B'. unfold draw_longitude. specialize (Hc (l_round L (abscissa v))).
    destruct (a_size A (l_round L (abscissa v))) as [z|e|u]; cbn [bind]; [|contradiction|congruence].
    assert (B0 : 0 <= (if prograde then wrap (samples - z) else z)).
    { destruct prograde; [unfold wrap; apply Z.mod_pos_bound; reflexivity|lia]. }
    destruct (Z.ltb_spec (if prograde then wrap (samples - z) else z) samples); [|exact B'].
    destruct (fill_column_bw n (Z.to_nat lines) samples (if prograde then wrap (samples - z) else z) 0 g')
      as (g1 & -> & B1); [lia|lia|nia|exact Hn|exact B'|exact B1].
Qed.

Lemma blank_bw : black_or_white n (repeat 0 (Z.to_nat (wrap n))).
Proof.
  destruct Hmap as (S0 & L0 & Hn). rewrite wrap_id by (change size_mod with (2^64); nia). split.
  - rewrite repeat_length. nia.
  - intros v H. apply repeat_spec in H. auto.
Qed.

Lemma cylindrical_safe (Hc : converts A) (Hl : row_starts L lines samples) fuel prograde ival jval ordinate abscissa :
  drawn n (make_grid samples lines (fun g => then_loop
    (latitude_lines L fuel samples lines ival ordinate g)
    (longitude_lines L fuel prograde samples lines jval abscissa))).
Proof.
  unfold make_grid. pose proof (latitude_safe Hl fuel ival ordinate _ blank_bw) as H.
  unfold then_loop. destruct (latitude_lines _ _ _ _ _ _ _) as [[g1|e|u]|]; try contradiction; [|exact Logic.I].
  apply longitude_safe; [exact Hc|exact H].
Qed.

(** Polar grids convert only coordinates inside the grid. *)
Hypothesis Hl : gridded L lines.
Hypothesis Hs : gridded L samples.

Lemma polar_dot_bw pix rho mm g : black_or_white n g ->
  exists g', polar_dot L samples lines pix rho mm g = Ok g' /\ black_or_white n g'.
Proof.
  destruct Hmap as (S0 & L0 & Hn). intros B. unfold polar_dot.
  match goal with |- context [a_le A _ (l_round L ?x) && a_lt A (l_round L ?x) (a_of_Z A samples) && a_le A _ (l_round L ?y)] =>
    set (i := x); set (k := y) end.
  destruct (a_le A (a_of_Z A 0) (l_round L i)) eqn:E1; [|exists g; split; [reflexivity|exact B]].
  destruct (a_lt A (l_round L i) (a_of_Z A samples)) eqn:E2; [|exists g; split; [reflexivity|exact B]].
  destruct (a_le A (a_of_Z A 0) (l_round L k)) eqn:E3; [|exists g; split; [reflexivity|exact B]].
  destruct (a_lt A (l_round L k) (a_of_Z A lines)) eqn:E4; [|exists g; split; [reflexivity|exact B]]. cbn [andb].
  destruct (Hs i E1 E2) as (zi & Hzi & ->). destruct (Hl k E3 E4) as (zk & Hzk & ->). cbn [bind].
  change (2 ^ 64) with size_mod in Hn.
  rewrite (wrap_id (zk * samples)) by nia. rewrite wrap_id by nia. apply put_bw; [nia|exact B].
Qed.

Lemma dots_bw dot : (forall m g, black_or_white n g -> exists g', dot m g = Ok g' /\ black_or_white n g') ->
  forall k m g, black_or_white n g -> exists g', dots k dot m g = Ok g' /\ black_or_white n g'.
Proof.
  intros H. induction k as [|k IH]; intros m g B; [exists g; auto|]. cbn [dots].
  destruct (H m g B) as (g1 & -> & B1). apply IH. exact B1.
Qed.

Lemma polar_safe eq_rad e graphic p fuel ival jval :
  match make_grid samples lines (polar_plot_grid L eq_rad e graphic p fuel samples lines ival jval) with
  | None => True | Some (Ok g) => black_or_white n g | Some _ => False end.
Proof.
  unfold make_grid, polar_plot_grid, then_loop.
  set (pix := a_div A (a_mul A (a_of_Z A 2) _) _).
  match goal with |- context [for_loop fuel ?t ?nx ?b ?v (repeat _ _)] =>
    pose proof (for_loop_inv t nx b (black_or_white n) (fun _ => False)) as H1 end.
  match goal with |- context [for_loop fuel ?t ?nx ?b ?v (repeat _ _)] =>
    specialize (fun X => H1 X fuel v _ blank_bw) end.
  destruct (for_loop _ _ _ _ _ (repeat _ _)) as [[g1|e1|u1]|].
  - assert (B1 : black_or_white n g1).
    { apply H1. intros v g' _ B. destruct (dots_bw (fun m => polar_dot L samples lines pix
        (stereo_rho L eq_rad e p (graphic (a_mul A v (l_degree L))))
        (a_mul A (a_mul A (a_div A (a_of_Z A m) (a_of_Z A 2000)) (l_degree L)) (a_of_Z A 360))) ) with (k := polar_imax) (m := 0) (g := g')
        as (g2 & -> & B2); [intros; apply polar_dot_bw; assumption|exact B|exact B2]. }
    apply for_loop_inv with (Bad := fun _ => False); [|exact B1]. intros v g' _ B.
    match goal with |- context [dots polar_imax ?d 0 g'] =>
      destruct (dots_bw d) with (k := polar_imax) (m := 0) (g := g')
        as (g2 & -> & B2); [intros; apply polar_dot_bw; assumption|exact B|exact B2] end.
  - destruct H1. intros v g' _ B.
    match goal with |- context [dots polar_imax ?d 0 g'] =>
      destruct (dots_bw d) with (k := polar_imax) (m := 0) (g := g')
        as (g2 & -> & B2); [intros; apply polar_dot_bw; assumption|exact B|exact B2] end.
  - destruct H1. intros v g' _ B.
    match goal with |- context [dots polar_imax ?d 0 g'] =>
      destruct (dots_bw d) with (k := polar_imax) (m := 0) (g := g')
        as (g2 & -> & B2); [intros; apply polar_dot_bw; assumption|exact B|exact B2] end.
  - exact Logic.I.
Qed.
End Safety.

(** ** Mode R *)
Lemma num_converts : converts ar_num.
Proof.
  intros [|r]; cbn [a_size ar_num num_size]; [reflexivity|].
  destruct (Z.leb_spec 0 (Ztrunc r)); [|reflexivity]. destruct (Z.ltb_spec (Ztrunc r) size_mod); [|reflexivity].
  cbn [andb]. lia.
Qed.

Lemma num_rounded c low (x : num) n : a_le ar_num (a_of_Z ar_num 0) (l_round (libm_num c low) x) = true ->
  a_lt ar_num (l_round (libm_num c low) x) (a_of_Z ar_num n) = true ->
  exists z, l_round (libm_num c low) x = Num (IZR z) /\ 0 <= z < n.
Proof.
  intros H1 H2. destruct x as [|r]; [discriminate|].
  change (l_round (libm_num c low) (Num r)) with (Num (IZR (ZnearestA r))) in *. exists (ZnearestA r).
  split; [reflexivity|]. unfold a_le in H1. cbn [a_isnan a_lt a_of_Z ar_num num_isnan num_lt negb andb] in H1, H2.
  revert H1 H2. case Rlt_bool_spec; [discriminate|]. intros H1 _. case Rlt_bool_spec; [|discriminate].
  intros H2 _. split; [apply le_IZR; exact H1|apply lt_IZR; exact H2].
Qed.

Lemma num_size_IZR z : 0 <= z < size_mod -> num_size (Num (IZR z)) = Ok z.
Proof.
  intros H. unfold num_size. rewrite Ztrunc_IZR. destruct (Z.leb_spec 0 z); [|lia].
  destruct (Z.ltb_spec z size_mod); [reflexivity|lia].
Qed.

Lemma num_gridded c low n : n <= size_mod -> gridded (libm_num c low) n.
Proof.
  intros Hn x H1 H2. destruct (num_rounded _ _ _ _ H1 H2) as (z & -> & Hz). exists z. split; [exact Hz|].
  apply num_size_IZR. lia.
Qed.

Lemma num_row_starts c low samples lines : map_size samples lines -> row_starts (libm_num c low) lines samples.
Proof.
  intros (S0 & L0 & Hn) x H1 H2. destruct (num_rounded _ _ _ _ H1 H2) as (z & -> & Hz). exists z. split; [exact Hz|].
  cbn [a_mul a_of_Z ar_num num2 a_size]. rewrite <- mult_IZR. apply num_size_IZR.
  change (2 ^ 64) with size_mod in Hn. nia.
Qed.

(** ** Doubles *)
#[local] Existing Instance prec53.
#[local] Existing Instance emax53.

Lemma double_converts : converts ar_double.
Proof.
  intros x. cbn [a_size ar_double]. unfold int_of_double. destruct (is_finite x); [|reflexivity].
  destruct (Z.leb_spec 0 (Btrunc x)); [|reflexivity]. destruct (Z.leb_spec (Btrunc x) (size_mod - 1)); [|reflexivity].
  cbn [andb]. lia.
Qed.

Lemma round_NA_IZR x : round radix2 (FIX_exp 0) ZnearestA x = IZR (ZnearestA x).
Proof. unfold round, scaled_mantissa, F2R, cexp, FIX_exp; simpl. now rewrite !Rmult_1_r. Qed.

Lemma double_rounded L (x : double) n : rounds_to_integer L -> 0 <= n <= 2 ^ 53 ->
  a_le ar_double (a_of_Z ar_double 0) (l_round L x) = true ->
  a_lt ar_double (l_round L x) (a_of_Z ar_double n) = true ->
  exists z, is_finite (l_round L x : double) = true /\ B2R (l_round L x : double) = IZR z /\ 0 <= z < n.
Proof.
  intros HL Hn H1 H2. rewrite HL in *. cbn [a_of_Z ar_double a_lt] in *. unfold a_le in H1.
  cbn [a_isnan a_lt ar_double] in H1. 
  destruct (double_of_Z_exact n ltac:(lia)) as [Fn Vn]. destruct (double_of_Z_exact 0 ltac:(lia)) as [F0 V0].
  destruct (Bnearbyint_correct 53 1024 emax53 mode_NA x) as (Vr & Fr & _).
  set (k := Bnearbyint mode_NA x) in *.
  destruct (is_nan k) eqn:Nk; [rewrite andb_comm in H1; cbn [negb] in H1; rewrite andb_comm in H1; rewrite (finite_not_nan _ F0) in H1; discriminate|].
  rewrite (finite_not_nan _ F0) in H1. cbn [negb andb] in H1.
  rewrite flt_spec in H1, H2 by (try assumption; apply finite_not_nan; assumption).
  rewrite (fval_finite _ F0), V0 in H1. rewrite (fval_finite _ Fn), Vn in H2.
  revert H1 H2. case Rlt_bool_spec; [discriminate|]. intros H1 _. case Rlt_bool_spec; [|discriminate]. intros H2 _.
  assert (Fk : is_finite k = true).
  { apply fval_finite_inv; [exact Nk|]. assert (IZR n <= IZR (2 ^ 53))%R by (apply IZR_le; lia).
    assert (IZR (2 ^ 53) < inf_val 1024)%R.
    { unfold inf_val. change (IZR (2 ^ 53)) with (bpow radix2 53). apply bpow_lt. reflexivity. }
    assert (0 < inf_val 1024)%R by apply bpow_gt_0. split; [lra|lra]. }
  rewrite (fval_finite _ Fk) in H1, H2. rewrite Vr in H1, H2. cbn [round_mode] in *. rewrite round_NA_IZR in *.
  exists (ZnearestA (B2R x)). split; [exact Fk|]. split; [exact Vr|].
  split; [apply le_IZR; exact H1|apply lt_IZR; exact H2].
Qed.

Lemma double_gridded L n : rounds_to_integer L -> 0 <= n <= 2 ^ 53 -> gridded L n.
Proof.
  intros HL Hn x H1 H2. destruct (double_rounded L x n HL Hn H1 H2) as (z & F & V & Hz). exists z. split; [exact Hz|].
  cbn [a_size ar_double]. rewrite int_of_double_ok; [|split; [lia|discriminate]|exact F|].
  - rewrite V, Ztrunc_IZR. reflexivity.
  - rewrite V. split.
    + apply Rlt_le_trans with (IZR 0); [simpl; lra|]. apply IZR_le. lia.
    + apply Rlt_le_trans with (IZR (2 ^ 53)); [apply IZR_lt; lia|]. rewrite <- plus_IZR. apply IZR_le. discriminate.
Qed.

Lemma double_row_starts L samples lines : rounds_to_integer L -> 0 <= samples -> 0 <= lines ->
  samples * lines <= 2 ^ 53 -> lines <= 2 ^ 53 -> samples <= 2 ^ 53 -> row_starts L lines samples.
Proof.
  intros HL S0 L0 Hn Hl Hs x H1 H2. destruct (double_rounded L x lines HL ltac:(lia) H1 H2) as (z & F & V & Hz).
  exists z. split; [exact Hz|]. cbn [a_size ar_double a_mul a_of_Z].
  destruct (double_of_Z_exact samples ltac:(lia)) as [Fs Vs].
  assert (Hzs : 0 <= z * samples <= 2 ^ 53) by nia.
  destruct (double_of_Z_exact (z * samples) ltac:(lia)) as [Fz Vz].
  pose proof (Bmult_correct 53 1024 _ _ mode_NE (l_round L x) (double_of_Z samples)) as M.
  rewrite V, Vs, <- mult_IZR, <- Vz in M.
  rewrite round_generic in M; [|apply valid_rnd_round_mode|apply generic_format_B2R].
  rewrite Rlt_bool_true in M by apply abs_B2R_lt_emax. rewrite F, Fs in M. destruct M as (Vm & Fm & _).
  rewrite int_of_double_ok; [|split; [lia|discriminate]|exact Fm|].
  - rewrite Vm, Vz, Ztrunc_IZR. reflexivity.
  - rewrite Vm, Vz. split.
    + apply Rlt_le_trans with (IZR 0); [simpl; lra|]. apply IZR_le. lia.
    + apply Rlt_le_trans with (IZR (2 ^ 53 + 1)); [apply IZR_lt; lia|]. rewrite <- plus_IZR. apply IZR_le. discriminate.
Qed.
