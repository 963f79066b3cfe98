(** Proofs about the projection loops, the simple cylindrical projection and
    the cylindrical grids (C46-C49). *)
From Coq Require Import List ZArith Reals Lra Lia Bool Sorting.Sorted.
From Flocq Require Import Core BinarySingleNaN.
From Verif Require Import Base BaseFacts Flt FltFacts Num Maths_Model Maths_Spec Maths_Proofs Spheroid_Model Spheroid_Proofs Proj_Model Proj_Spec.
Import ListNotations.
Open Scope Z_scope.

(** * Loops *)
Section Loops.
Context {P : Type}.

Definition chunk (calls : list (P * Z)) (lo hi : Z) : Prop :=
  in_order calls /\ forall p o, In (p, o) calls -> lo <= o < hi.

Lemma chunk_app a b lo mid hi : lo <= mid <= hi -> chunk a lo mid -> chunk b mid hi -> chunk (a ++ b) lo hi.
Proof.
  intros M [Sa Ra] [Sb Rb]. split.
  - unfold in_order in *. rewrite map_app.
    assert (Hb : forall o, In o (map snd b) -> mid <= o).
    { intros o Ho. apply in_map_iff in Ho. destruct Ho as ((p & o') & <- & Hin). apply Rb in Hin. cbn. lia. }
    clear Rb. induction a as [|[p o] a IH]; [exact Sb|].
    cbn [map snd app] in *. apply StronglySorted_inv in Sa. destruct Sa as [Sa Fa].
    constructor; [apply IH; auto|].
    + intros q x Hx. apply (Ra q). right. exact Hx.
    + apply Forall_app. split; [exact Fa|]. apply Forall_forall. intros x Hx.
      specialize (Hb x Hx). specialize (Ra p o (or_introl eq_refl)). lia.
  - intros p o H. apply in_app_or in H. destruct H as [H|H]; [apply Ra in H|apply Rb in H]; lia.
Qed.

Lemma chunk_nil lo hi : chunk [] lo hi.
Proof. split; [constructor|intros p o []]. Qed.

Lemma chunk_wider calls lo hi hi' : hi <= hi' -> chunk calls lo hi -> chunk calls lo hi'.
Proof. intros H [S R]. split; [exact S|]. intros p o I. apply R in I. lia. Qed.

Lemma wrap_id z : 0 <= z < size_mod -> wrap z = z.
Proof. apply Z.mod_small. Qed.

Lemma plot_row_spec n : forall (f : Z -> outcome (option P)) i off calls e,
  0 <= off -> off + Z.of_nat n < size_mod -> plot_row n f i off = (calls, e) ->
  chunk calls off (off + Z.of_nat n) /\
  (forall p o, In (p, o) calls -> f (i + (o - off)) = Ok (Some p)) /\
  (forall o', e = Ok o' -> o' = off + Z.of_nat n /\
     forall j, 0 <= j < Z.of_nat n -> exists c, f (i + j) = Ok c /\ (forall p, c = Some p -> In (p, off + j) calls)).
Proof.
  induction n as [|n IH]; intros f i off calls e H0 Hn E.
  - cbn [plot_row] in E. injection E as <- <-. split; [apply chunk_nil|]. split; [intros p o []|].
    intros o' [= <-]. split; [lia|]. intros j Hj. lia.
  - cbn [plot_row] in E. destruct (f i) as [c|x|u] eqn:F.
    + destruct (plot_row n f (i + 1) (wrap (off + 1))) as [r o] eqn:R.
      rewrite wrap_id in R by lia. injection E as <- <-.
      destruct (IH f (i + 1) (off + 1) r o) as (C & V & D); [lia|lia|exact R|].
      split; [|split].
      * destruct c as [p|].
        -- change ((p, off) :: r) with ([(p, off)] ++ r). apply (chunk_app _ _ off (off + 1)); [lia| |].
           ++ split; [repeat constructor|]. intros q x [[= <- <-]|[]]. lia.
           ++ replace (off + Z.of_nat (S n)) with (off + 1 + Z.of_nat n) by lia. exact C.
        -- destruct C as [S0 R0]. split; [exact S0|]. intros p x Hx. apply R0 in Hx. lia.
      * intros p x Hx. destruct c as [q|].
        -- destruct Hx as [[= <- <-]|Hx]; [rewrite Z.sub_diag, Z.add_0_r; exact F|].
           apply V in Hx. rewrite <- Hx. f_equal. lia.
        -- apply V in Hx. rewrite <- Hx. f_equal. lia.
      * intros o' Eo. destruct (D o' Eo) as [-> Dj]. split; [lia|]. intros j Hj.
        destruct (Z.eq_dec j 0) as [->|Nz].
        -- exists c. rewrite Z.add_0_r. split; [exact F|]. intros p ->. rewrite Z.add_0_r. left. reflexivity.
        -- destruct (Dj (j - 1)) as (c' & Fc & Hc); [lia|]. exists c'.
           replace (i + 1 + (j - 1)) with (i + j) in Fc by lia. split; [exact Fc|].
           intros p Hp. specialize (Hc p Hp). replace (off + 1 + (j - 1)) with (off + j) in Hc by lia.
           destruct c; [right; exact Hc|exact Hc].
    + injection E as <- <-. split; [apply chunk_nil|]. split; [intros p o []|discriminate].
    + injection E as <- <-. split; [apply chunk_nil|]. split; [intros p o []|discriminate].
Qed.

Lemma plot_rows_spec n : forall (samples : Z) (row : Z -> outcome (Z -> outcome (option P))) k off calls e,
  0 <= samples -> 0 <= off -> off + Z.of_nat n * samples < size_mod -> plot_rows n samples row k off = (calls, e) ->
  chunk calls off (off + Z.of_nat n * samples) /\
  (forall p o, In (p, o) calls -> exists j i f, 0 <= j < Z.of_nat n /\ 0 <= i < samples /\
     o = off + j * samples + i /\ row (k + j) = Ok f /\ f i = Ok (Some p)) /\
  (forall o', e = Ok o' -> o' = off + Z.of_nat n * samples /\
     forall j i, 0 <= j < Z.of_nat n -> 0 <= i < samples -> exists f c,
       row (k + j) = Ok f /\ f i = Ok c /\ (forall p, c = Some p -> In (p, off + j * samples + i) calls)).
Proof.
  induction n as [|n IH]; intros samples row k off calls e Hs H0 Hn E.
  - cbn [plot_rows] in E. injection E as <- <-. split; [apply chunk_nil|]. split; [intros p o []|].
    intros o' [= <-]. split; [lia|]. intros j i Hj. lia.
  - cbn [plot_rows] in E. destruct (row k) as [f|x|u] eqn:F.
    + destruct (plot_row (Z.to_nat samples) f 0 off) as [r o] eqn:R.
      destruct (plot_row_spec (Z.to_nat samples) f 0 off r o) as (C & V & D); [lia|lia|exact R|].
      rewrite Z2Nat.id in C, D by lia.
      assert (Row : forall p x, In (p, x) r -> exists j i f, 0 <= j < Z.of_nat (S n) /\ 0 <= i < samples /\
        x = off + j * samples + i /\ row (k + j) = Ok f /\ f i = Ok (Some p)).
      { intros p x Hx. exists 0, (x - off), f. destruct C as [_ RC]. specialize (RC p x Hx).
        specialize (V p x Hx). rewrite Z.add_0_l in V. 
        repeat split; try lia; try assumption. rewrite Z.add_0_r. exact F. }
      destruct o as [o|x|u].
      * destruct (D o eq_refl) as [-> Dj].
        destruct (plot_rows n samples row (k + 1) (off + samples)) as [rs o'] eqn:RS. injection E as <- <-.
        destruct (IH samples row (k + 1) (off + samples) rs o') as (C' & V' & D'); [lia|lia|lia|exact RS|].
        split; [|split].
        -- apply (chunk_app _ _ off (off + samples)); [lia|exact C|].
           replace (off + Z.of_nat (S n) * samples) with (off + samples + Z.of_nat n * samples) by lia. exact C'.
        -- intros p x Hx. apply in_app_or in Hx. destruct Hx as [Hx|Hx]; [apply Row; exact Hx|].
           destruct (V' p x Hx) as (j & i & g & Hj & Hi & -> & Rj & Gi). exists (j + 1), i, g.
           replace (k + (j + 1)) with (k + 1 + j) by lia. repeat split; try lia; assumption.
        -- intros y Ey. destruct (D' y Ey) as [-> Dj']. split; [lia|]. intros j i Hj Hi.
           destruct (Z.eq_dec j 0) as [->|Nz].
           ++ destruct (Dj i Hi) as (c & Fc & Hc). exists f, c. rewrite Z.add_0_r. rewrite Z.add_0_l in Fc.
              repeat split; try assumption. intros p Hp. apply in_or_app. left.
              replace (off + 0 * samples + i) with (off + i) by lia. apply Hc. exact Hp.
           ++ destruct (Dj' (j - 1) i) as (g & c & Rj & Gi & Hc); [lia|lia|]. exists g, c.
              replace (k + 1 + (j - 1)) with (k + j) in Rj by lia. repeat split; try assumption.
              intros p Hp. apply in_or_app. right.
              replace (off + j * samples + i) with (off + samples + (j - 1) * samples + i) by lia. apply Hc. exact Hp.
      * injection E as <- <-. split; [apply (chunk_wider _ _ (off + samples)); [nia|exact C]|]. split; [exact Row|discriminate].
      * injection E as <- <-. split; [apply (chunk_wider _ _ (off + samples)); [nia|exact C]|]. split; [exact Row|discriminate].
    + injection E as <- <-. split; [apply chunk_nil|]. split; [intros p o []|discriminate].
    + injection E as <- <-. split; [apply chunk_nil|]. split; [intros p o []|discriminate].
Qed.

(** What the loops of any projection guarantee. *)
Lemma loops_spec samples lines (row : Z -> outcome (Z -> outcome (option P))) calls e :
  map_size samples lines -> plot_loops samples lines row = (calls, e) ->
  in_order calls /\ inside (samples * lines) calls /\
  (forall k i p, 0 <= i < samples -> plotted samples calls k i p ->
     exists f, row k = Ok f /\ f i = Ok (Some p)) /\
  (forall o, e = Ok o -> forall k i, 0 <= k < lines -> 0 <= i < samples -> exists f c,
     row k = Ok f /\ f i = Ok c /\ forall p, c = Some p -> plotted samples calls k i p).
Proof.
  intros (Hs & Hl & Hn) E. unfold plot_loops in E.
  destruct (plot_rows_spec (Z.to_nat lines) samples row 0 0 calls e) as ((S & R) & V & D);
    [lia|lia|change size_mod with (2 ^ 64); lia|exact E|].
  rewrite Z2Nat.id in * by lia.
  split; [exact S|]. split; [|split].
  - intros p o H. apply R in H. lia.
  - intros k i p Hi H. destruct (V p (k * samples + i) H) as (j & i' & f & Hj & Hi' & Eq & Rj & Fi).
    assert (j = k) by nia. subst j. assert (i' = i) by lia. subst i'. exists f. auto.
  - intros o Eo k i Hk Hi. destruct (D o Eo) as [_ Dj]. destruct (Dj k i Hk Hi) as (f & c & Rj & Fi & Hc).
    exists f, c. repeat split; try assumption.
Qed.

(** All cells plotted: the offsets are 0, 1, ..., in this order. *)
Lemma sorted_offsets (l : list Z) : forall a n, StronglySorted Z.lt l ->
  (forall x, In x l <-> a <= x < a + Z.of_nat n) -> l = map (fun j => a + Z.of_nat j) (seq 0 n).
Proof.
  induction l as [|x l IH]; intros a n S M.
  - destruct n as [|n]; [reflexivity|]. exfalso. apply (M a). lia.
  - apply StronglySorted_inv in S. destruct S as [S F]. rewrite Forall_forall in F.
    destruct n as [|n]; [exfalso; specialize (proj1 (M x) (or_introl eq_refl)); lia|].
    assert (x = a).
    { destruct (proj2 (M a) ltac:(lia)) as [->|H]; [reflexivity|].
      specialize (F a H). specialize (proj1 (M x) (or_introl eq_refl)). lia. }
    subst x. cbn [seq map]. f_equal; [lia|]. rewrite <- seq_shift, map_map.
    rewrite (IH (a + 1) n); [|exact S|].
    + apply map_ext. intros j. lia.
    + intros y. split.
      * intros H. specialize (F y H). specialize (proj1 (M y) (or_intror H)). lia.
      * intros H. destruct (proj2 (M y) ltac:(lia)) as [->|H']; [lia|exact H'].
Qed.

Lemma loops_all samples lines (row : Z -> outcome (Z -> outcome (option P))) calls e :
  map_size samples lines -> plot_loops samples lines row = (calls, e) ->
  (exists o, e = Ok o) ->
  (forall k f i, row k = Ok f -> f i <> Ok None) ->
  map snd calls = offsets (samples * lines).
Proof.
  intros Sz E (o & Eo) Hp. destruct (loops_spec _ _ _ _ _ Sz E) as (S & R & _ & D).
  destruct Sz as (Hs & Hl & Hn). unfold offsets.
  rewrite (sorted_offsets (map snd calls) 0 (Z.to_nat (samples * lines))).
  - apply map_ext. intros j. lia.
  - exact S.
  - rewrite Z2Nat.id by nia. intros x. split.
    + intros H. apply in_map_iff in H. destruct H as ((p & y) & <- & H). apply R in H. cbn. lia.
    + intros H. assert (0 < samples) by nia.
      destruct (D o Eo (x / samples) (x mod samples)) as (f & c & Rk & Fi & Hc).
      * split; [apply Z.div_pos; lia|]. apply Z.div_lt_upper_bound; lia.
      * apply Z.mod_pos_bound. lia.
      * destruct c as [p|]; [|exfalso; exact (Hp _ _ _ Rk Fi)].
        apply in_map_iff. exists (p, x). split; [reflexivity|].
        specialize (Hc p eq_refl). unfold plotted in Hc.
        replace (x / samples * samples + x mod samples) with x in Hc; [exact Hc|].
        rewrite (Z.div_mod x samples) at 1 by lia. lia.
Qed.

(** Loops in which nothing throws run to the end. *)
Lemma row_total n (f : Z -> outcome (option P)) : (forall i, exists c, f i = Ok c) ->
  forall i off, exists calls o, plot_row n f i off = (calls, Ok o).
Proof.
  intros H. induction n as [|n IH]; intros i off; [eexists _, _; reflexivity|].
  cbn [plot_row]. destruct (H i) as [c ->]. destruct (IH (i + 1) (wrap (off + 1))) as (r & o & ->).
  eexists _, _; reflexivity.
Qed.

Lemma rows_total n samples (row : Z -> outcome (Z -> outcome (option P))) :
  (forall k, exists f, row k = Ok f /\ forall i, exists c, f i = Ok c) ->
  forall k off, exists calls o, plot_rows n samples row k off = (calls, Ok o).
Proof.
  intros H. induction n as [|n IH]; intros k off; [eexists _, _; reflexivity|].
  cbn [plot_rows]. destruct (H k) as (f & -> & Hf).
  destruct (row_total (Z.to_nat samples) f Hf 0 off) as (r & o & ->).
  destruct (IH (k + 1) o) as (rs & o' & ->). eexists _, _; reflexivity.
Qed.
End Loops.

(** * Simple cylindrical *)
Lemma sc_all (A : arith) (pro : bool) (centric : A -> A) (p : simple_cyl A) samples lines :
  map_size samples lines ->
  exists calls o, sc_plot_map pro centric p samples lines = (calls, Ok o) /\
    map snd calls = offsets (samples * lines).
Proof.
  intros Sz. destruct (sc_plot_map pro centric p samples lines) as [calls e] eqn:E. unfold sc_plot_map in E.
  match type of E with plot_loops _ _ ?r = _ => set (row := r) in E end.
  destruct (rows_total (Z.to_nat lines) samples row) with (k := 0) (off := 0) as (c & o & E').
  { intros k. eexists. split; [reflexivity|]. intros i. eexists. reflexivity. }
  unfold plot_loops in E. rewrite E' in E. injection E as <- <-.
  exists c, o. split; [reflexivity|]. apply (loops_all samples lines row c (Ok o)); auto; [eexists; reflexivity|].
  intros k f i [= <-]. discriminate.
Qed.

Open Scope R_scope.

Lemma num_half : half (A := ar_num) = Num (1 / 2).
Proof. unfold half. cbn. unfold num_div. cbn. rewrite Req_bool_false by lra. f_equal; lra. Qed.

Lemma num_divide a b : b <> 0 -> num_div (Num a) (Num b) = Num (a / b).
Proof. intros H. unfold num_div. cbn. rewrite Req_bool_false by exact H. reflexivity. Qed.

Lemma Ok_inj {X} (x y : X) : Ok x = Ok y -> x = y.
Proof. congruence. Qed.

Ltac nums := cbn [a_add a_sub a_mul a_div a_of_Z a_lt a_abs a_isnan ar_num acar num2 num1 num_lt num_isnan num_abs
  l_sin l_cos l_tan l_log l_pow l_hypot l_atan2 l_round l_pi l_2pi l_pi2 l_pi4 l_degree libm_num
  sc_lo_lat sc_hi_lat sc_lo_lon sc_hi_lon sc_graphic].

Section Cylinder.
Context (pro : bool) (cen : R -> R) (lo_lat hi_lat a b : R) (gl : bool).
Local Notation p := (@SimpleCyl ar_num (Num lo_lat) (Num hi_lat) (Num a) (Num b) gl).
Local Notation centric := (num1 (fun r => Num (cen r)) : ar_num -> ar_num).

(** Latitude and longitude of cell (k, i). *)
Definition cyl_lat (lines k : Z) : R :=
  let l := lo_lat + (IZR k + 1 / 2) * (hi_lat - lo_lat) / IZR lines in if gl then cen l else l.
Definition cyl_lon (samples i : Z) : R :=
  let d := (b - a) / IZR samples in if pro then b - (IZR i + 1 / 2) * d else a + (IZR i + 1 / 2) * d.

Lemma sc_cell samples lines calls e : map_size samples lines ->
  sc_plot_map pro centric p samples lines = (calls, e) ->
  forall k i, (0 <= k < lines)%Z -> (0 <= i < samples)%Z ->
  plotted samples calls k i (Num (cyl_lat lines k) : ar_num, Num (cyl_lon samples i) : ar_num) /\
  forall q, plotted samples calls k i q -> q = (Num (cyl_lat lines k) : ar_num, Num (cyl_lon samples i) : ar_num).
Proof.
  intros Sz E k i Hk Hi.
  destruct (sc_all ar_num pro centric p samples lines Sz) as (calls' & o & E' & _).
  rewrite E in E'. injection E' as <- ->. unfold sc_plot_map in E.
  match type of E with plot_loops _ _ ?r = _ => set (row := r) in E end.
  destruct (loops_spec samples lines row calls (Ok o) Sz E) as (_ & _ & V & D).
  assert (Cell : forall f c, row k = Ok f -> f i = Ok c -> c = Some (Num (cyl_lat lines k) : ar_num, Num (cyl_lon samples i) : ar_num)).
  { intros f c F C. apply Ok_inj in F. subst f. apply Ok_inj in C. subst c. unfold sc_longitude. rewrite num_half. nums.
    assert (L0 : IZR lines <> 0) by (apply not_0_IZR; lia).
    assert (S0 : IZR samples <> 0) by (apply not_0_IZR; lia).
    rewrite !num_divide by assumption. nums. unfold cyl_lat, cyl_lon.
    f_equal. f_equal.
    - destruct gl; cbn; f_equal; [f_equal|]; field; exact L0.
    - destruct pro; cbn; f_equal; field; exact S0. }
  destruct (D o eq_refl k i Hk Hi) as (f & c & Rk & Fi & Hc). split.
  - apply Hc. apply (Cell f); assumption.
  - intros q Hq. destruct (V k i q Hi Hq) as (g & Rk' & Gi). specialize (Cell g (Some q) Rk' Gi). injection Cell. auto.
Qed.

Lemma fraction k n : (0 <= k < n)%Z -> 0 < (IZR k + 1 / 2) / IZR n < 1.
Proof.
  intros [H1 H2]. apply IZR_le in H1. apply IZR_lt in H2 as H3.
  assert (H4 : IZR k + 1 <= IZR n) by (rewrite <- plus_IZR; apply IZR_le; lia).
  assert (0 < IZR n) by lra.
  split; [apply Rdiv_lt_0_compat; lra|]. apply (Rmult_lt_reg_r (IZR n)); [lra|].
  unfold Rdiv. rewrite Rmult_assoc, Rinv_l, Rmult_1_r by lra. lra.
Qed.

Lemma inside_range lo hi t : lo < hi -> 0 < t < 1 -> lo < lo + t * (hi - lo) < hi.
Proof. intros H T. split; nra. Qed.

Lemma cyl_lon_inside samples i : (0 <= i < samples)%Z -> a < b -> a < cyl_lon samples i < b.
Proof.
  intros Hi Hab. pose proof (fraction i samples Hi) as F. unfold cyl_lon.
  replace ((IZR i + 1 / 2) * ((b - a) / IZR samples)) with ((IZR i + 1 / 2) / IZR samples * (b - a))
    by (field; apply not_0_IZR; lia).
  set (t := (IZR i + 1 / 2) / IZR samples) in *. destruct pro; split; nra.
Qed.
End Cylinder.

Lemma validate_lat_ok c low d : - 90 <= d <= 90 ->
  validate_latitude (A := ar_num) (l_degree (libm_num c low)) (Num d) = Ok (Num (d * (c / 180))).
Proof.
  intros H. destruct (validate_all (c / 180) (Num d)) as [E _]. unfold accepts in E.
  rewrite !Rle_bool_true in E by lra. exact E.
Qed.
Lemma validate_lon_ok c low d : - 360 <= d <= 360 ->
  validate_longitude (A := ar_num) (l_degree (libm_num c low)) (Num d) = Ok (Num (d * (c / 180))).
Proof.
  intros H. destruct (validate_all (c / 180) (Num d)) as (_ & E & _). unfold accepts in E.
  rewrite !Rle_bool_true in E by lra. exact E.
Qed.
Lemma validate_lat_inv c low (d l : num) :
  validate_latitude (A := ar_num) (l_degree (libm_num c low)) d = Ok l ->
  exists r, d = Num r /\ -90 <= r <= 90 /\ l = Num (r * (c / 180)).
Proof.
  intros H. destruct (validate_all (c / 180) d) as [E _]. unfold accepts in E.
  destruct d as [|r].
  - cbn [l_degree libm_num] in H. rewrite E in H. discriminate.
  - cbn [l_degree libm_num] in H. destruct (Rle_bool (- (90)) r && Rle_bool r 90) eqn:B; rewrite E in H; [|discriminate].
    injection H as <-. exists r. apply andb_prop in B. destruct B as [B1 B2].
    destruct (Rle_bool_spec (- (90)) r); [|discriminate]. destruct (Rle_bool_spec r 90); [|discriminate].
    repeat split; lra.
Qed.
Lemma validate_lon_inv c low (d l : num) :
  validate_longitude (A := ar_num) (l_degree (libm_num c low)) d = Ok l ->
  exists r, d = Num r /\ -360 <= r <= 360 /\ l = Num (r * (c / 180)).
Proof.
  intros H. destruct (validate_all (c / 180) d) as (_ & E & _). unfold accepts in E.
  destruct d as [|r].
  - cbn [l_degree libm_num] in H. rewrite E in H. discriminate.
  - cbn [l_degree libm_num] in H. destruct (Rle_bool (- (360)) r && Rle_bool r 360) eqn:B; rewrite E in H; [|discriminate].
    injection H as <-. exists r. apply andb_prop in B. destruct B as [B1 B2].
    destruct (Rle_bool_spec (- (360)) r); [|discriminate]. destruct (Rle_bool_spec r 360); [|discriminate].
    repeat split; lra.
Qed.

(** The constructor on accepted input. *)
Definition same_longitude (x y : R) : Prop := almost_equal (A := ar_num) eps_num tiny_num (Num x) (Num y) 2
  || (almost_zero (A := ar_num) eps_num (Num x) 2 && almost_zero (A := ar_num) eps_num (Num y) 2) = true.

Lemma sc_new c low gra (lo_lat hi_lat lo_lon hi_lon : num) gl p : 0 < c ->
  simple_cyl_new (libm_num c low) (num1 (fun r => Num (gra r))) lo_lat hi_lat lo_lon hi_lon gl = Ok p ->
  exists l h o u a b,
    lo_lat = Num l /\ hi_lat = Num h /\ lo_lon = Num o /\ hi_lon = Num u /\
    -90 <= l <= 90 /\ -90 <= h <= 90 /\ -360 <= o <= 360 /\ -360 <= u <= 360 /\
    p = @SimpleCyl ar_num (Num (if gl then gra (l * (c / 180)) else l * (c / 180)))
          (Num (if gl then gra (h * (c / 180)) else h * (c / 180))) (Num (a * (c / 180))) (Num (b * (c / 180))) gl /\
    ((u < o /\ a = o - 360 /\ b = u) \/
     (o <= u /\ same_longitude (o * (c / 180)) (u * (c / 180)) /\ a = o /\ b = u + 360) \/
     (o <= u /\ ~ same_longitude (o * (c / 180)) (u * (c / 180)) /\ a = o /\ b = u)).
Proof.
  intros Hc H. unfold simple_cyl_new, boundary_latitude in H.
  destruct (validate_latitude (l_degree (libm_num c low)) lo_lat) as [v1|?|?] eqn:E1; try discriminate. cbn [bind] in H.
  destruct (validate_latitude (l_degree (libm_num c low)) hi_lat) as [v2|?|?] eqn:E2; try discriminate. cbn [bind] in H.
  destruct (validate_longitude (l_degree (libm_num c low)) lo_lon) as [v3|?|?] eqn:E3; try discriminate. cbn [bind] in H.
  destruct (validate_longitude (l_degree (libm_num c low)) hi_lon) as [v4|?|?] eqn:E4; try discriminate. cbn [bind] in H.
  apply validate_lat_inv in E1, E2. apply validate_lon_inv in E3, E4.
  destruct E1 as (l & -> & Hl & ->). destruct E2 as (h & -> & Hh & ->).
  destruct E3 as (o & -> & Ho & ->). destruct E4 as (u & -> & Hu & ->).
  exists l, h, o, u.
  assert (Q : 0 < c / 180) by lra.
  cbn [a_lt ar_num num_lt] in H. destruct (Rlt_bool_spec (u * (c / 180)) (o * (c / 180))) as [Hlt|Hge].
  - exists (o - 360), u. injection H as <-. repeat split; try lra.
    + destruct gl; cbn; f_equal; f_equal; field.
    + left. repeat split; nra.
  - change (l_eps (libm_num c low)) with eps_num in H. change (l_tiny (libm_num c low)) with tiny_num in H.
    match type of H with (if ?x then _ else _) = _ => destruct x eqn:S end.
    + exists o, (u + 360). injection H as <-. repeat split; try lra.
      * destruct gl; cbn; f_equal; f_equal; field.
      * right. left. repeat split; try nra. exact S.
    + exists o, u. injection H as <-. repeat split; try lra.
      * destruct gl; reflexivity.
      * right. right. repeat split; try nra. unfold same_longitude. rewrite S. discriminate.
Qed.

Lemma sc_uniform c low eq pol : 0 < c <= PI -> 0 < pol -> pol <= eq ->
  forall pro l h (lo_lon hi_lon : num) gl p samples lines, map_size samples lines -> l < h ->
  simple_cyl_new (libm_num c low) (num_graphic eq pol) (Num l : ar_num) (Num h : ar_num) lo_lon hi_lon gl = Ok p ->
  exists calls o a b lat lon,
    sc_plot_map pro (num_centric eq pol) p samples lines = (calls, Ok o) /\
    sc_lo_lon p = Num a /\ sc_hi_lon p = Num b /\
    forall k i, (0 <= k < lines)%Z -> (0 <= i < samples)%Z ->
      (forall q, plotted samples calls k i q <-> q = (Num (lat k) : ar_num, Num (lon i) : ar_num)) /\
      l * (c / 180) < lat k < h * (c / 180) /\
      (let conv := if gl then graphic_latitude eq pol else (fun x => x) in
       conv (lat k) = conv (l * (c / 180)) +
         (IZR k + 1 / 2) * ((conv (h * (c / 180)) - conv (l * (c / 180))) / IZR lines)) /\
      lon i = (if pro then b - (IZR i + 1 / 2) * ((b - a) / IZR samples)
               else a + (IZR i + 1 / 2) * ((b - a) / IZR samples)) /\
      (a < b -> a < lon i < b).
Proof.
  intros Hc Hp Hep pro l h lo_lon hi_lon gl p samples lines Sz Hlh E.
  apply sc_new in E; [|lra].
  destruct E as (l' & h' & o & u & a & b & [= <-] & [= <-] & -> & -> & Hl & Hh & Ho & Hu & -> & _).
  set (L := l * (c / 180)). set (H := h * (c / 180)).
  assert (LH : - (PI / 2) <= L /\ L < H /\ H <= PI / 2) by (unfold L, H; repeat split; nra).
  set (conv := if gl then graphic_latitude eq pol else (fun x => x)).
  replace (if gl then graphic_latitude eq pol L else L) with (conv L) by (unfold conv; destruct gl; reflexivity).
  replace (if gl then graphic_latitude eq pol H else H) with (conv H) by (unfold conv; destruct gl; reflexivity).
  set (q := @SimpleCyl ar_num (Num (conv L)) (Num (conv H)) (Num (a * (c / 180))) (Num (b * (c / 180))) gl).
  destruct (sc_all ar_num pro (num_centric eq pol) q samples lines Sz) as (calls & o' & Ec & _).
  exists calls, o', (a * (c / 180)), (b * (c / 180)),
    (cyl_lat (centric_latitude eq pol) (conv L) (conv H) gl lines),
    (cyl_lon pro (a * (c / 180)) (b * (c / 180)) samples).
  split; [exact Ec|]. split; [reflexivity|]. split; [reflexivity|]. intros k i Hk Hi.
  destruct (sc_cell pro (centric_latitude eq pol) (conv L) (conv H) (a * (c / 180)) (b * (c / 180)) gl samples lines
    calls (Ok o') Sz Ec k i Hk Hi) as [P1 P2].
  assert (mono : forall x y, - (PI / 2) <= x -> x < y -> y <= PI / 2 -> conv x < conv y).
  { intros x y X1 X2 X3. unfold conv. destruct gl; [|lra]. apply latitudes_increasing; assumption. }
  assert (CLH : conv L < conv H) by (apply mono; lra).
  assert (bound : forall x, - (PI / 2) <= x <= PI / 2 -> - (PI / 2) <= conv x <= PI / 2).
  { intros x X. unfold conv. destruct gl; [|lra]. apply ktan_bound. lra. }
  pose proof (bound L ltac:(lra)) as BL. pose proof (bound H ltac:(lra)) as BH.
  pose proof (fraction k lines Hk) as F.
  set (m := conv L + (IZR k + 1 / 2) * (conv H - conv L) / IZR lines).
  assert (M : conv L < m < conv H).
  { pose proof (inside_range (conv L) (conv H) _ CLH F) as I. unfold m.
    replace ((IZR k + 1 / 2) * (conv H - conv L) / IZR lines) with ((IZR k + 1 / 2) / IZR lines * (conv H - conv L))
      by (field; apply not_0_IZR; lia). exact I. }
  assert (V : cyl_lat (centric_latitude eq pol) (conv L) (conv H) gl lines k = if gl then centric_latitude eq pol m else m) by reflexivity.
  assert (Inv : gl = true -> centric_latitude eq pol (conv L) = L /\ centric_latitude eq pol (conv H) = H).
  { intros ->. unfold conv. destruct (latitudes eq pol Hp Hep L ltac:(lra)) as [E1 _].
    destruct (latitudes eq pol Hp Hep H ltac:(lra)) as [E2 _]. split; assumption. }
  split; [intros r; split; [apply P2|intros ->; exact P1]|].
  rewrite V. split.
  { destruct gl eqn:G; [|exact M].
    destruct (Inv eq_refl) as [I1 I2].
    destruct (latitudes_increasing eq pol Hp Hep (conv L) m) as [J1 _]; [lra|lra|lra|].
    destruct (latitudes_increasing eq pol Hp Hep m (conv H)) as [J2 _]; [lra|lra|lra|].
    rewrite I1 in J1. rewrite I2 in J2. split; assumption. }
  split.
  { cbv zeta. transitivity m; [|unfold m; field; apply not_0_IZR; lia]. unfold conv. destruct gl; [|reflexivity].
    destruct (latitudes eq pol Hp Hep m ltac:(lra)) as (_ & E2 & _). exact E2. }
  split; [reflexivity|]. intros Hab. apply cyl_lon_inside; assumption.
Qed.

Lemma sc_interval c low gra (lo_lat hi_lat : num) o u gl p : 0 < c ->
  simple_cyl_new (libm_num c low) (num1 (fun r => Num (gra r))) lo_lat hi_lat (Num o : ar_num) (Num u : ar_num) gl = Ok p ->
  o - u < 360 -> u - o <= 360 ->
  exists a b, sc_lo_lon p = Num (a * (c / 180)) /\ sc_hi_lon p = Num (b * (c / 180)) /\
    same_degrees a o /\ same_degrees b u /\ a < b /\
    (b - a <= 360 \/ (b - a = 360 + (u - o) /\ indistinguishable (o * (c / 180)) (u * (c / 180)))).
Proof.
  intros Hc E H1 H2. apply sc_new in E; [|exact Hc].
  destruct E as (l' & h' & o' & u' & a & b & -> & -> & [= <-] & [= <-] & Hl & Hh & Ho & Hu & -> & D).
  exists a, b. split; [reflexivity|]. split; [reflexivity|].
  destruct D as [(Hlt & -> & ->)|[(Hle & S & -> & ->)|(Hle & N & -> & ->)]].
  - split; [exists (-1)%Z; lra|]. split; [exists 0%Z; lra|]. split; lra.
  - split; [exists 0%Z; lra|]. split; [exists 1%Z; lra|]. split; [lra|]. right. split; [lra|].
    unfold same_longitude in S. apply is_almost_equal_spec. exact S.
  - split; [exists 0%Z; lra|]. split; [exists 0%Z; lra|].
    assert (o <> u).
    { intros ->. apply N. unfold same_longitude. rewrite almost_equal_refl_R. reflexivity. }
    split; lra.
Qed.

(** Crossed or doubled full circles. *)
Lemma sc_empty_circle c low gra : 1 < c ->
  (exists p, simple_cyl_new (libm_num c low) (num1 (fun r => Num (gra r))) (Num (-90) : ar_num) (Num 90 : ar_num)
     (Num 360 : ar_num) (Num 0 : ar_num) false = Ok p /\
     sc_lo_lon p = Num 0 /\ sc_hi_lon p = Num 0) /\
  (exists p, simple_cyl_new (libm_num c low) (num1 (fun r => Num (gra r))) (Num (-90) : ar_num) (Num 90 : ar_num)
     (Num (-360) : ar_num) (Num 360 : ar_num) false = Ok p /\
     sc_lo_lon p = Num (- (2 * c)) /\ sc_hi_lon p = Num (2 * c)).
Proof.
  intros Hc. unfold simple_cyl_new, boundary_latitude.
  rewrite !validate_lat_ok, !validate_lon_ok by lra. cbn [bind].
  split.
  - eexists. split; [nums; rewrite Rlt_bool_true by nra; reflexivity|].
    cbn. split; f_equal; field.
  - eexists. split.
    + nums. rewrite Rlt_bool_false by nra.
      change (l_eps (libm_num c low)) with eps_num. change (l_tiny (libm_num c low)) with tiny_num.
      assert (N : almost_equal (A := ar_num) eps_num tiny_num (Num (- 360 * (c / 180))) (Num (360 * (c / 180))) 2
        || (almost_zero (A := ar_num) eps_num (Num (- 360 * (c / 180))) 2 && almost_zero (A := ar_num) eps_num (Num (360 * (c / 180))) 2) = false).
      { apply not_true_is_false. intros H. apply is_almost_equal_spec in H. unfold indistinguishable in H.
        replace (- 360 * (c / 180) - 360 * (c / 180)) with (- (4 * c)) in H by field.
        replace (- 360 * (c / 180) + 360 * (c / 180)) with 0 in H by ring.
        rewrite Rabs_Ropp, (Rabs_right (4 * c)), Rabs_R0 in H by lra.
        replace (- 360 * (c / 180)) with (- (2 * c)) in H by field. replace (360 * (c / 180)) with (2 * c) in H by field.
        rewrite Rabs_Ropp, (Rabs_right (2 * c)) in H by lra.
        pose proof eps_small. pose proof tiny_small. lra. }
      rewrite N. reflexivity.
    + cbn. split; f_equal; field.
Qed.
