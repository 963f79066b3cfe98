(** Proofs for C100 to C102. *)
From Coq Require Import List ZArith Reals Bool String Lra Lia Psatz Sorting.Sorted.
From Flocq Require Import Core BinarySingleNaN.
From Verif Require Import Base BaseFacts Flt FltFacts Num Maths_Model Extrema_Model Extrema_Spec MakeMap_Model MakeMap_Spec MakeMap_Proofs
  Proj_Model Proj_Spec Proj_Proofs Ortho_Model Ortho_Proofs Virtual_Model Virtual_Spec VirtualPlane_Proofs Params_Model
  Fits_Model Fits_Spec Command_Model Command_Spec Command_Proofs Input_Model Parse_Model Parse_Spec
  Run_Model Run_Spec RunAngle_Proofs.
Import ListNotations.
Open Scope Z_scope.

(** ** Making one plane *)
Lemma plot_inv {T : ctype} read (e : extrema T) st q c st' : plot read e st q c = Ok st' ->
  (exists r, read q zero_datum = Ok r) /\
  pi_samples (snd st') = pi_samples (snd st) /\ pi_lines (snd st') = pi_lines (snd st) /\ pi_blank (snd st') = pi_blank (snd st) /\
  plot_count (pi_notifier (snd st)) < Z.of_nat (List.length (fst st)) /\
  plot_count (pi_notifier (snd st')) = wrap (plot_count (pi_notifier (snd st)) + 1) /\
  List.length (fst st') = List.length (fst st).
Proof.
  destruct st as [m info]. unfold plot. intros H. apply bind_inv in H. destruct H as ([ok d] & R & H).
  apply bind_inv in H. destruct H as ([m1 i1] & S & H). apply bind_inv in H. destruct H as (n & N & H).
  injection H as <-. cbn [fst snd]. split; [eauto|].
  assert (K : pi_samples i1 = pi_samples info /\ pi_lines i1 = pi_lines info /\ pi_blank i1 = pi_blank info /\
    pi_notifier i1 = pi_notifier info /\ List.length m1 = List.length m).
  { destruct (_ && _) in S; [|injection S as <- <-; auto].
    apply bind_inv in S. destruct S as (v & V & S). destruct (_ && _) in S; [|discriminate]. injection S as <- <-.
    rewrite upd_len. auto. }
  cbn [set_notifier pi_samples pi_lines pi_blank pi_notifier]. destruct K as (-> & -> & -> & Kn & Kl).
  unfold notify_plotted in N. destruct (_ && _) eqn:C in N; [|discriminate]. injection N as <-.
  apply andb_prop in C. destruct C as [_ C]. apply Z.ltb_lt in C. rewrite Kn, Kl in C. rewrite Kn. cbn [plot_count]. repeat split; auto.
Qed.
Lemma plot_calls_inv {T : ctype} read (e : extrema T) calls : forall st st', plot_calls read e calls st = Ok st' ->
  (forall q c, In (q, c) calls -> exists r, read q zero_datum = Ok r) /\
  pi_samples (snd st') = pi_samples (snd st) /\ pi_lines (snd st') = pi_lines (snd st) /\ pi_blank (snd st') = pi_blank (snd st) /\
  List.length (fst st') = List.length (fst st).
Proof.
  induction calls as [|[q c] calls IH]; intros st st' H; cbn [plot_calls] in H.
  - injection H as <-. repeat split; auto. intros q c [].
  - apply bind_inv in H. destruct H as (s1 & H1 & H). apply plot_inv in H1. apply IH in H.
    destruct H1 as (R & A & B & C & _ & _ & D). destruct H as (R' & A' & B' & C' & D').
    rewrite A', B', C', D'. repeat split; auto. intros q' c' [E|E]; [injection E as <- <-; exact R|eauto].
Qed.
Lemma make_map_inv {T : ctype} read (mm : extrema T) info calls m info' : make_map read mm info calls = Ok (m, info') ->
  (forall q c, In (q, c) calls -> exists r, read q zero_datum = Ok r) /\
  pi_samples info' = pi_samples info /\ pi_lines info' = pi_lines info /\ pi_blank info' = pi_blank info /\
  plot_count (pi_notifier info') = 0.
Proof.
  unfold make_map. intros H. apply bind_inv in H. destruct H as (b & _ & H). apply bind_inv in H. destruct H as (e & _ & H).
  apply bind_inv in H. destruct H as ([m1 i1] & P & H). apply bind_inv in H. destruct H as (n & N & H).
  injection H as <- <-. apply plot_calls_inv in P. destruct P as (R & A & B & C & _). cbn [fst snd] in *.
  cbn [set_notifier pi_samples pi_lines pi_blank pi_notifier]. repeat split; auto.
  unfold notify_done in N. destruct (_ <? _) in N; [|discriminate]. injection N as <-. reflexivity.
Qed.

(** ** One plane among several *)
Lemma make_planes_nth t calls planes : forall info maps info' j p,
  MakeMap_Model.make_planes t calls planes info = Ok (maps, info') -> Forall (fun p => pl_image p <> None) planes ->
  plot_count (pi_notifier info) = 0 -> nth_error planes j = Some p ->
  exists read mm m i i' warned, pl_image p = Some read /\ ex_convert t (pl_minmax p) = Ok mm /\
    pi_samples i = pi_samples info /\ pi_lines i = pi_lines info /\ pi_blank i = pi_blank info /\
    plot_count (pi_notifier i) = 0 /\ make_map read mm i calls = Ok (m, i') /\ nth_error maps j = Some (m, warned).
Proof.
  induction planes as [|p0 planes IH]; intros info maps info' j p H F Z J; [destruct j; discriminate|].
  inversion F as [|? ? F0 F']; subst. cbn [MakeMap_Model.make_planes] in H. destruct (pl_image p0) as [read|] eqn:Ei; [|contradiction].
  apply bind_inv in H. destruct H as (mm & C & H). apply bind_inv in H. destruct H as ([m i1] & M & H).
  apply bind_inv in H. destruct H as ([ms i2] & R & H). injection H as <- <-.
  destruct j as [|j].
  - cbn in J. injection J as <-. exists read, mm, m, info, i1. eexists. cbn [nth_error]. auto 10.
  - cbn [nth_error] in J. destruct (make_map_inv _ _ _ _ _ _ M) as (_ & A & B & D & E).
    destruct (IH i1 ms i2 j p R F' E J) as (read' & mm' & m' & i & i' & w & Q1 & Q2 & Q3 & Q4 & Q5 & Q6 & Q7 & Q8).
    exists read', mm', m', i, i', w. cbn [nth_error fst]. rewrite Q3, Q4, Q5. auto 10.
Qed.

(** ** Cells of a plane *)
Lemma stores_in read lo hi calls l : stores read lo hi calls l -> forall c d, In (c, d) l ->
  exists q, In (q, c) calls /\ read q zero_datum = Ok (true, d) /\ within lo hi d.
Proof.
  induction 1 as [|q c d calls l R W S IH|q c ok d calls l R W S IH]; intros c' d' H'.
  - destruct H'.
  - destruct H' as [E|H']; [injection E as <- <-; exists q; repeat split; auto; now left|].
    destruct (IH _ _ H') as (q' & A & B & C). exists q'. repeat split; auto. now right.
  - destruct (IH _ _ H') as (q' & A & B & C). exists q'. repeat split; auto. now right.
Qed.
Lemma stores_not read lo hi calls l : stores read lo hi calls l -> forall c, ~ In c (map fst l) ->
  forall q, In (q, c) calls -> exists ok x, read q zero_datum = Ok (ok, x) /\ (ok = false \/ ~ within lo hi x).
Proof.
  induction 1 as [|q c d calls l R W S IH|q c ok d calls l R W S IH]; intros c' N q' H'.
  - destruct H'.
  - cbn [map fst] in N. destruct H' as [E|H']; [injection E as <- <-; exfalso; apply N; now left|].
    apply IH with c'; auto. intros X. apply N. now right.
  - destruct H' as [E|H']; [injection E as <- <-; eauto|eauto].
Qed.
Lemma plane_cells t read (mm : extrema (ct t)) (info : plot_info (ct t)) calls lo hi m info' :
  make_map read mm info calls = Ok (m, info') -> limits t mm lo hi -> proper_size info ->
  (forall q c, In (q, c) calls -> 0 <= c < cells info) -> Z.of_nat (List.length calls) <= cells info ->
  plot_count (pi_notifier info) = 0 ->
  exists blank, blank_of t (pi_blank info) = Some blank /\
    forall c, 0 <= c < cells info -> exists v, nth_error m (Z.to_nat c) = Some v /\ shows t read lo hi blank calls c v.
Proof.
  intros M Lm Sz In_ Len Zc.
  destruct (blank_of t (pi_blank info)) as [blank|] eqn:B; [|rewrite make_map_bad_blank in M by exact B; discriminate].
  exists blank. split; [reflexivity|].
  destruct (Rle_or_lt lo hi) as [LE|LT]; [|rewrite (make_map_crossed t read mm info calls lo hi blank B Lm LT) in M; discriminate].
  destruct (make_map_inv _ _ _ _ _ _ M) as (R & _).
  destruct (map_contents_ok t read mm info calls lo hi blank Lm LE B Sz) as (m1 & i1 & l & M1 & S & MC); auto.
  { split; [|exact Len]. intros q c H. split; eauto. }
  rewrite M in M1. injection M1 as <- <-. intros c Hc. destruct MC as [_ MC]. destruct (MC c Hc) as [(d & v & LS & E & H)|[N E]].
  - exists v. split; [exact E|]. left. destruct LS as (l1 & l2 & -> & _).
    destruct (stores_in _ _ _ _ _ S c d ltac:(apply in_or_app; right; left; reflexivity)) as (q & A & B' & C). eauto 10.
  - exists blank. split; [exact E|]. right. split; [reflexivity|]. exact (stores_not _ _ _ _ _ S c N).
Qed.

(** ** The points of the projections *)
Lemma sorted_nodup l : StronglySorted Z.lt l -> NoDup l.
Proof.
  induction 1 as [|x l S IH F]; constructor; [|exact IH]. intros H. rewrite Forall_forall in F. specialize (F x H). lia.
Qed.
Lemma inside_length {P} (calls : list (P * Z)) n : 0 <= n -> in_order calls -> inside n calls -> Z.of_nat (List.length calls) <= n.
Proof.
  intros N S I. apply sorted_nodup in S.
  assert (L : (List.length (map snd calls) <= List.length (map Z.of_nat (seq 0 (Z.to_nat n))))%nat).
  { apply NoDup_incl_length; [exact S|]. intros x H. apply in_map_iff in H. destruct H as ((q & c) & <- & H).
    apply I in H. apply in_map_iff. exists (Z.to_nat c). cbn. split; [lia|]. apply in_seq. lia. }
  rewrite !map_length, seq_length in L. lia.
Qed.
Lemma calls_spec X p samples lines calls o : map_size samples lines -> calls_of X p samples lines = (calls, Ok o) ->
  in_order calls /\ inside (samples * lines) calls.
Proof.
  intros Sz H. destruct p as [b|b lat lon pa kpp c|b m n|b lo hi lo' hi' g]; cbn [calls_of] in H.
  - unfold mercator_plot_map in H. destruct (loops_spec _ _ _ _ _ Sz H) as (A & B & _). auto.
  - destruct (ortho_of X b lat lon pa kpp c) as [q| |]; try discriminate.
    unfold ortho_plot_map in H. destruct (map_parameters _ _ _ _ _) as [[k s] l].
    destruct (loops_spec _ _ _ _ _ Sz H) as (A & B & _). auto.
  - destruct (polar_new _ _ _) as [q| |]; try discriminate.
    unfold polar_plot_map in H. destruct (loops_spec _ _ _ _ _ Sz H) as (A & B & _). auto.
  - destruct (simple_cyl_new _ _ _ _ _ _ _) as [q| |]; try discriminate.
    unfold sc_plot_map in H. destruct (loops_spec _ _ _ _ _ Sz H) as (A & B & _). auto.
Qed.

(** ** No image is null *)
Lemma make_not_null X f t o ex : ready_image f -> make_of X f t = Ok (o, ex) -> o <> None.
Proof.
  intros R H. unfold ready_image in R. unfold make_of in H.
  assert (V : forall k phys l, computed X t k phys l = Ok (o, ex) -> o <> None).
  { intros k phys l E. unfold computed in E. apply bind_inv in E. destruct E as ([[s o'] e] & _ & E). injection E as <- _. discriminate. }
  destruct (if_source f) as [p|l a|b la lo r|b la lo|b la lo sla slo r|b g|]; try (eapply V; exact H).
  - apply bind_inv in H. destruct H as ([o' s] & H & E). injection E as <- _. destruct R as [R1 R2].
    unfold photo_make_of, Input_Model.photo_make in H.
    destruct (Parse_Model.ph_config p) as [c|] eqn:Ec; [|contradiction]. destruct (Parse_Model.ph_geometry p) as [v|] eqn:Ev; [|contradiction].
    unfold photo_of in H. rewrite Ec, Ev in H. cbn [ps_config ps_geometry option_map] in H.
    repeat (let y := fresh in apply bind_inv in H; destruct H as (y & _ & H);
            repeat match goal with z : (_ * _)%type |- _ => destruct z end).
    injection H as <- _. discriminate.
  - apply bind_inv in H. destruct H as (ps & _ & H). apply bind_inv in H. destruct H as (e & _ & H). injection H as <- _. discriminate.
Qed.

(** ** The first array of the file *)
Lemma execute_first status left_over removable c w w' r size :
  (forall n, status n = 0) -> execute status left_over removable c w = (w', Ok r) ->
  0 <= c_samples c -> 0 <= c_lines c -> Z.of_nat size = c_samples c * c_lines c -> (2 <= size)%nat ->
  (1 <= List.length (c_factories c))%nat ->
  Z.of_nat size * Z.of_nat (List.length (c_factories c)) < 2 ^ 63 - 1 ->
  exists p b t os maps limits cards d rest,
    populate_map_parameters (map f_source (c_factories c)) (c_params c) = Ok p /\
    get_bitpix p = Ok b /\ type_of_bitpix b = Some t /\ Forall2 (makes t) (c_factories c) os /\
    make_map_planes t (c_samples c) (c_lines c) (p_blank p) (c_calls c) (map as_plane os) = Ok (maps, limits) /\
    w_file w' = new_file (Hdu t (image_axes (c_samples c) (c_lines c) (Z.of_nat (List.length (c_factories c)))) cards d :: rest) /\
    cards = header_cards c t p (produced (map fst os)) limits /\
    (Forall (fun o => fst o <> None) os -> List.length maps = List.length os /\ holds_planes size maps d).
Proof.
  intros fine E S0 L0 Sz S P M. apply execute_success in E.
  destruct E as [_ (p & b & t & os & maps & limits & d & Hp & Hb & Ht & F & H & W & L)].
  exists p, b, t, os, maps, limits, (header_cards c t p (produced (map fst os)) limits), d.
  assert (G : exists rest, w_file w' = new_file (Hdu t (image_axes (c_samples c) (c_lines c) (Z.of_nat (List.length (c_factories c))))
     (header_cards c t p (produced (map fst os)) limits) d :: rest)).
  { destruct L as [[_ L]|(g & dg & _ & _ & L)]; rewrite L; eauto. }
  destruct G as [rest G]. exists rest. repeat (split; [assumption|]). split; [reflexivity|].
  intros NN. assert (Len : List.length os = List.length (c_factories c)) by (symmetry; exact (makes_length _ _ _ F)).
  assert (Mz : Forall (fun m => List.length (fst m) = size) maps /\ List.length maps = List.length (c_factories c)).
  { unfold make_map_planes in H. apply bind_inv in H. destruct H as ([ms i1] & H & H2). apply make_planes_size in H.
    destruct H as [H3 H4]. assert (maps = ms) as -> by (cbn in H2; congruence). split.
    - revert H3. apply Forall_impl. intros m ->. cbn. unfold wrap. rewrite Z.mod_small by (unfold size_mod; nia). lia.
    - rewrite H4, map_length; [exact Len|]. apply Forall_forall. intros x Hx. apply in_map_iff in Hx.
      destruct Hx as (o & <- & Ho). rewrite Forall_forall in NN. specialize (NN o Ho). cbn in *. destruct (fst o); [discriminate|contradiction]. }
  destruct Mz as [Mz Ml]. split; [lia|]. intros j m Hj. rewrite Forall_forall in Mz. split; [apply Mz; eapply nth_error_In; eassumption|].
  eapply (written_all status (c_samples c) (c_lines c) (List.length (c_factories c)) size); try eassumption; try nia.
  - now rewrite map_length, Ml.
  - apply Forall_forall. intros x Hx. apply in_map_iff in Hx. destruct Hx as (o & <- & Ho). unfold stored.
    rewrite map_length. now apply Mz.
  - now rewrite nth_error_map, Hj.
Qed.

(** ** C100 *)
Lemma command_inv X fuel m c : command_of X fuel m = Some c -> exists o,
  calls_of X (mc_projection m) (mc_samples m) (mc_lines m) = (c_calls c, Ok o) /\
  c_samples c = mc_samples m /\ c_lines c = mc_lines m /\ c_factories c = map (factory_of X) (mc_images m) /\ c_params c = mc_params m /\
  c_projection c = name_of (mc_projection m).
Proof.
  unfold command_of. destruct (calls_of _ _ _ _) as [calls [o| |]]; try discriminate. intros H. exists o.
  destruct (mc_grid m) as [[lat lon]|].
  - destruct (grid_of _ _ _ _ _ _ _); [|discriminate]. injection H as <-. cbn. auto 10.
  - injection H as <-. cbn. auto 10.
Qed.
Lemma Forall2_nth {A B} (R : A -> B -> Prop) l l' : Forall2 R l l' -> forall j a, nth_error l j = Some a ->
  exists b, nth_error l' j = Some b /\ R a b.
Proof.
  induction 1 as [|x y l l' H F IH]; intros j a J; [destruct j; discriminate|].
  destruct j as [|j]; [injection J as <-; exists y; auto|]. exact (IH j a J).
Qed.

Lemma planes_cards_nth p num l : forall n j i, nth_error l j = Some i ->
  exists before after, planes_cards p num n l = before ++ scaling_cards p num (n + Z.of_nat j) i ++ after.
Proof.
  induction l as [|x l IH]; intros n [|j] i H; try discriminate; cbn [nth_error] in H.
  - injection H as ->. exists [], (planes_cards p num (n + 1) l). cbn. now rewrite Z.add_0_r.
  - destruct (IH (n + 1) j i H) as (b & a & E). exists (scaling_cards p num n x ++ b), a. cbn [planes_cards].
    rewrite E, <- app_assoc. do 4 f_equal. lia.
Qed.
Lemma produced_nth os : Forall (fun o : option simage * extrema (ct F64) => fst o <> None) os ->
  forall j i ex, nth_error os j = Some (Some i, ex) -> nth_error (produced (map fst os)) j = Some i.
Proof.
  induction 1 as [|[[x|] e] l Hx _ IH]; intros [|j] i ex H; try discriminate; cbn in *; try congruence.
  exact (IH j i ex H).
Qed.
Lemma header_scaling c t p images limits j i : nth_error images j = Some i ->
  exists before after, header_cards c t p images limits =
    before ++ scaling_cards p (Z.of_nat (List.length (c_factories c))) (Z.of_nat j + 1) i ++ after.
Proof.
  intros H. destruct (planes_cards_nth p (Z.of_nat (List.length (c_factories c))) images 1 j i H) as (b & a & E).
  unfold header_cards. rewrite E, (Z.add_comm (Z.of_nat j)).
  match goal with |- exists before after, ?p1 ++ ?p2 ++ ?p3 ++ ?p4 ++ ?p5 ++ ?p6 ++ (b ++ ?s ++ a) ++ ?p8 = _ =>
    exists (p1 ++ p2 ++ p3 ++ p4 ++ p5 ++ p6 ++ b), (a ++ p8) end.
  rewrite <- !app_assoc. reflexivity.
Qed.

Theorem elements X fuel status left_over removable m c w w' r :
  (forall n, status n = 0) -> ready_command m -> fits_size m ->
  command_of X fuel m = Some c -> execute status left_over removable c w = (w', Ok r) ->
  exists p t axes cards d rest o,
    populate_map_parameters (map (parameters_of X) (mc_images m)) (mc_params m) = Ok p /\
    type_of_bitpix (p_bitpix p) = Some t /\
    w_file w' = new_file (Hdu t axes cards d :: rest) /\
    calls_of X (mc_projection m) (mc_samples m) (mc_lines m) = (c_calls c, Ok o) /\
    forall j f, nth_error (mc_images m) j = Some f ->
    exists image ex before after, make_of X f t = Ok (Some image, ex) /\
    cards = before ++ scaling_cards p (Z.of_nat (List.length (mc_images m))) (Z.of_nat j + 1) image ++ after /\
    forall lo hi, plane_limits t ex lo hi ->
    exists blank, blank_of t (p_blank p) = Some blank /\
    forall k i, 0 <= k < mc_lines m -> 0 <= i < mc_samples m ->
    exists v, d (element m (Z.of_nat j) k i) = Some (existT _ t v) /\
      shows t (si_read image) lo hi blank (c_calls c) (k * mc_samples m + i) v.
Proof.
  intros fine R (S0 & L0 & Sz & Fit) C E. destruct (command_inv X fuel m c C) as (o & Hc & Cs & Cl & Cf & Cp & _).
  assert (N : (1 <= List.length (mc_images m))%nat \/ mc_images m = []) by (destruct (mc_images m); cbn; auto; left; lia).
  destruct N as [N|N].
  2: { (* no planes: nothing is claimed about elements *)
    apply execute_success in E. destruct E as [_ (p & b & t & os & maps & limits & d & Hp & Hb & Ht & _ & _ & _ & L)].
    assert (Bp : p_bitpix p = b). { unfold get_bitpix in Hb. destruct (valid_bitpix (p_bitpix p)); [|discriminate]. now injection Hb. }
    assert (G : exists axes cards rest, w_file w' = new_file (Hdu t axes cards d :: rest)).
    { destruct L as [[_ L]|(g & dg & _ & _ & L)]; rewrite L; eauto. }
    destruct G as (axes & cards & rest & G). exists p, t, axes, cards, d, rest, o.
    rewrite Cf, Cp, map_map in Hp. split; [exact Hp|]. rewrite Bp. repeat (split; [assumption|]).
    intros j f J. rewrite N in J. destruct j; discriminate. }
  destruct (execute_first status left_over removable c w w' r (Z.to_nat (mc_samples m * mc_lines m)) fine E)
    as (p & b & t & os & maps & limits & cards & d & rest & Hp & Hb & Ht & F & H & G & Hc' & Hold).
  { lia. } { lia. } { rewrite Cs, Cl. lia. } { lia. } { rewrite Cf, map_length. exact N. } { rewrite Cf, map_length. lia. }
  assert (Bp : p_bitpix p = b). { unfold get_bitpix in Hb. destruct (valid_bitpix (p_bitpix p)); [|discriminate]. now injection Hb. }
  exists p, t. eexists. exists cards, d, rest, o. rewrite Cf, Cp, map_map in Hp. split; [exact Hp|]. rewrite Bp. split; [exact Ht|].
  split; [exact G|]. split; [exact Hc|].
  assert (NN : Forall (fun o => fst o <> None) os).
  { rewrite Cf in F. apply Forall_forall. intros x Hx. apply In_nth_error in Hx. destruct Hx as [j J].
    destruct (nth_error (map (factory_of X) (mc_images m)) j) as [fa|] eqn:Ja.
    - destruct (Forall2_nth _ _ _ F j fa Ja) as (x' & J' & Mk). rewrite J in J'. injection J' as <-.
      rewrite nth_error_map in Ja. destruct (nth_error (mc_images m) j) as [f|] eqn:Jf; [|discriminate]. injection Ja as <-.
      unfold makes in Mk. cbn [f_make factory_of] in Mk. destruct x as [ox ex].
      eapply make_not_null; [|exact Mk]. unfold ready_command in R. rewrite Forall_forall in R. apply R. eapply nth_error_In. exact Jf.
    - apply nth_error_None in Ja. assert (nth_error os j <> None) by (rewrite J; discriminate). apply nth_error_Some in H0.
      rewrite <- (makes_length _ _ _ F) in H0. lia. }
  destruct (Hold NN) as [Lm HP]. intros j f J.
  assert (Ja : nth_error (c_factories c) j = Some (factory_of X f)) by (rewrite Cf, nth_error_map, J; reflexivity).
  destruct (Forall2_nth _ _ _ F j _ Ja) as ([ox ex] & Jo & Mk). unfold makes in Mk. cbn [f_make factory_of] in Mk.
  destruct ox as [image|]; [|exfalso; rewrite Forall_forall in NN; exact (NN _ (nth_error_In _ _ Jo) eq_refl)].
  destruct (header_scaling c t p (produced (map fst os)) limits j image (produced_nth os NN j image ex Jo)) as (before & after & Hh).
  exists image, ex, before, after. split; [exact Mk|].
  split. { rewrite Hc', Hh, Cf, map_length. reflexivity. }
  intros lo hi PL.
  unfold make_map_planes in H. apply bind_inv in H. destruct H as ([ms i1] & H & H2). assert (maps = ms) as -> by (cbn in H2; congruence).
  assert (Jp : nth_error (map as_plane os) j = Some (as_plane (Some image, ex))) by (rewrite nth_error_map, Jo; reflexivity).
  destruct (make_planes_nth t _ _ _ _ _ j (as_plane (Some image, ex)) H) as (read & mm & mp & i & i' & warned & Q1 & Q2 & Q3 & Q4 & Q5 & Q6 & Q7 & Q8).
  { apply Forall_forall. intros x Hx. apply in_map_iff in Hx. destruct Hx as (o' & <- & Ho). rewrite Forall_forall in NN.
    specialize (NN o' Ho). destruct o' as [[y|] z]; cbn in *; [discriminate|congruence]. }
  { reflexivity. } { exact Jp. }
  cbn in Q1. injection Q1 as <-. cbn [as_plane pl_minmax snd] in Q2.
  destruct (plane_limits_convert t ex lo hi PL) as (mm' & E1 & Lim). rewrite Q2 in E1. injection E1 as <-.
  cbn in Q3, Q4, Q5. rewrite Cs in Q3. rewrite Cl in Q4.
  assert (Ms : map_size (mc_samples m) (mc_lines m)). { unfold map_size. nia. }
  destruct (calls_spec X _ _ _ _ _ Ms Hc) as [IO IN].
  destruct (plane_cells t (si_read image) mm i (c_calls c) lo hi mp i' Q7 Lim) as (blank & Bl & Cell).
  { unfold proper_size, cells. rewrite Q3, Q4. nia. }
  { unfold cells. rewrite Q3, Q4. exact IN. }
  { unfold cells. rewrite Q3, Q4. apply inside_length; [nia|exact IO|exact IN]. }
  { exact Q6. }
  exists blank. rewrite Q5 in Bl. split; [exact Bl|]. intros k ii Hk Hi. unfold cells in Cell. rewrite Q3, Q4 in Cell.
  destruct (Cell (k * mc_samples m + ii)) as (v & Ev & Sh); [nia|]. exists v. split; [|exact Sh].
  destruct (HP j (mp, warned) Q8) as [Lmp Oc]. cbn [fst] in Oc, Lmp.
  assert (O := Oc (Z.to_nat (k * mc_samples m + ii))). unfold stored in O. rewrite map_length, nth_error_map, Ev in O. cbn [option_map] in O.
  rewrite <- O; [f_equal; unfold element; nia|]. rewrite Lmp. apply Z2Nat.inj_lt; nia.
Qed.
