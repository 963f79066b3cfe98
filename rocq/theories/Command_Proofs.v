(** Proofs for C61, C62, C72 and C89. *)
From Coq Require Import List ZArith Bool String Lia Reals Lra.
From Flocq Require Import Core BinarySingleNaN.
From Verif Require Import Base Flt FltFacts Num Maths_Model Extrema_Model MakeMap_Model Virtual_Model Params_Model Fits_Model
  Fits_Spec Fits_Proofs Command_Model Command_Spec.
Import ListNotations.
Open Scope Z_scope.

Lemma andthen_inv {A B} (m : cmd A) (f : A -> cmd B) w w' b : andthen m f w = (w', Ok b) ->
  exists w1 a, m w = (w1, Ok a) /\ f a w1 = (w', Ok b).
Proof.
  unfold andthen. destruct (m w) as [w1 [a|e|u]]; intros H; try discriminate. eauto.
Qed.
Lemma lift_inv {A} (o : outcome A) w w' a : lift o w = (w', Ok a) -> w' = w /\ o = Ok a.
Proof. unfold lift. intros H. injection H as -> ->. auto. Qed.

Ltac step H := let w := fresh "w" in let a := fresh "a" in let E := fresh "E" in
  apply andthen_inv in H; destruct H as (w & a & E & H).

Section Inversion.
Variable status : nat -> Z.
Variable left_over : nat -> disk datum.

Lemma checked_inv w w' u : checked status w = (w', Ok u) -> w_file w' = w_file w.
Proof.
  intros H. unfold checked in H. step H. unfold call in E. injection E as <- <-.
  destruct (_ =? 0) in H; [|discriminate]. injection H as <- _. reflexivity.
Qed.

(** The last array of the file. *)
Definition last_is (w : world) (hs : list hdu) (t : mapty) (axes : list Z) (cs : list card) (d : disk datum) : Prop :=
  w_file w = new_file (hs ++ [Hdu t axes cs d]).

Lemma put_card_inv w w' u c hs t ax cs d : last_is w hs t ax cs d ->
  put_card status c w = (w', Ok u) -> last_is w' hs t ax (cs ++ [c]) d.
Proof.
  unfold last_is. intros L H. unfold put_card in H. step H. apply checked_inv in E.
  unfold add_card in H. rewrite E, L, rev_unit in H. injection H as <- _. cbn. now rewrite rev_involutive.
Qed.
Lemma put_string_inv w w' u name v hs t ax cs d : last_is w hs t ax cs d ->
  put_string status name v w = (w', Ok u) -> last_is w' hs t ax (cs ++ string_card name v) d.
Proof.
  intros L H. unfold put_string, string_card in *. destruct v as [|c v]; cbn [String.eqb] in H.
  - injection H as <- _. now rewrite app_nil_r.
  - eapply put_card_inv; eassumption.
Qed.
Lemma put_double_inv w w' u name v hs t ax cs d : last_is w hs t ax cs d ->
  put_double status name v w = (w', Ok u) -> last_is w' hs t ax (cs ++ double_card name v) d.
Proof.
  intros L H. unfold put_double, double_card in *. destruct (is_nan v).
  - injection H as <- _. now rewrite app_nil_r.
  - eapply put_card_inv; eassumption.
Qed.
Lemma put_datum_inv w w' u name t' v hs t ax cs d : last_is w hs t ax cs d ->
  put_datum status name t' v w = (w', Ok u) -> last_is w' hs t ax (cs ++ datum_card name t' v) d.
Proof.
  intros L H. unfold put_datum, datum_card in *. destruct (is_nan _).
  - injection H as <- _. now rewrite app_nil_r.
  - eapply put_card_inv; eassumption.
Qed.
Lemma put_blank_inv w w' u t' b hs t ax cs d : last_is w hs t ax cs d ->
  put_blank status t' b w = (w', Ok u) ->
  last_is w' hs t ax (cs ++ match b with Some z => if c_integral (ct t') then [key_int "BLANK" z] else [] | None => [] end) d.
Proof.
  intros L H. unfold put_blank in *. destruct b as [z|]; [destruct (c_integral (ct t'))|].
  - eapply put_card_inv; eassumption.
  - injection H as <- _. now rewrite app_nil_r.
  - injection H as <- _. now rewrite app_nil_r.
Qed.
Lemma put_comments_inv l : forall w w' u hs t ax cs d, last_is w hs t ax cs d ->
  put_comments status l w = (w', Ok u) -> last_is w' hs t ax (cs ++ map card_comment l) d.
Proof.
  induction l as [|c l IH]; intros w w' u hs t ax cs d L H; cbn [put_comments map] in *.
  - injection H as <- _. now rewrite app_nil_r.
  - step H. eapply put_card_inv in E; [|exact L].
    change (card_comment c :: map card_comment l) with ([card_comment c] ++ map card_comment l).
    rewrite app_assoc. eapply IH; eassumption.
Qed.

Lemma make_image_inv w w' im t samples lines planes ext hs : w_file w = new_file hs ->
  make_image status t samples lines planes ext w = (w', Ok im) ->
  im = image_new samples lines planes /\ last_is w' hs t (image_axes samples lines planes) [] (fun _ => None).
Proof.
  intros L H. unfold make_image in H. step H. unfold call in E. injection E as <- <-.
  step H. step H. step H. step H. unfold call in E2. injection E2 as <- <-.
  destruct (Z.eqb_spec (status (w_calls w)) 0) as [S|S]; [|cbn [andb] in H; discriminate].
  cbn [andb] in H. destruct (_ =? 0) in H; [|discriminate]. injection H as <- <-.
  split; [reflexivity|]. unfold last_is. cbn.
  apply checked_inv in E1. rewrite E1.
  cbn in E. rewrite L in E. injection E as <- _.
  destruct ext; [apply checked_inv in E0; now rewrite E0|]. injection E0 as <- _. reflexivity.
Qed.

Lemma write_image_inv w w' t im data r hs t' ax cs d : last_is w hs t' ax cs d ->
  write_image status left_over t im data w = (w', Ok r) ->
  exists a d', a_data a = stored data /\ (exists n, a_status a = status n) /\
    write a im d = Ok (fst r, snd r, d') /\ last_is w' hs t' ax cs d'.
Proof.
  unfold last_is. intros L H. unfold write_image in H. rewrite L, rev_unit in H. cbn [h_disk] in H.
  match type of H with context [write ?a _ _] => set (at0 := a) in * end.
  destruct (write at0 im d) as [[[ok im'] d']|e|u] eqn:W; try discriminate.
  injection H as <- <-. exists at0, d'. split; [reflexivity|]. split; [eexists; reflexivity|].
  split; [exact W|]. cbn. now rewrite rev_involutive.
Qed.

Lemma virtual_facts_inv w w' u p n num i hs t ax cs d : valid_bitpix (p_bitpix p) = true -> last_is w hs t ax cs d ->
  virtual_facts status p n num i w = (w', Ok u) -> last_is w' hs t ax (cs ++ scaling_cards p num n i) d.
Proof.
  intros V L H. unfold virtual_facts, scaling_cards in *. destruct (si_scaling i) as [[s o]|].
  2: { injection H as <- _. now rewrite app_nil_r. }
  step H. apply lift_inv in E. destruct E as [-> E]. unfold get_bitpix in E. rewrite V in E. injection E as <-.
  destruct (p_bitpix p <? 0).
  { injection H as <- _. now rewrite app_nil_r. }
  cbv zeta in *. set (z := if almost_zero _ _ _ then _ else _) in *. clearbody z.
  step H. eapply put_string_inv in E; [|exact L].
  destruct (num =? 1).
  - step H. eapply put_double_inv in E0; [|exact E]. step H. eapply put_double_inv in E1; [|exact E0].
    apply checked_inv in H. unfold last_is in *. rewrite H, E1. now rewrite <- !app_assoc.
  - step H. eapply put_card_inv in E0; [|exact E]. step H. eapply put_card_inv in E1; [|exact E0].
    eapply put_card_inv in H; [|exact E1]. unfold last_is in *. rewrite H. now rewrite <- !app_assoc.
Qed.

Lemma writes_cons {E} (a : attempt E) l im d ok im1 d1 rs im2 d2 :
  write a im d = Ok (ok, im1, d1) -> writes l im1 d1 = Ok (rs, im2, d2) ->
  writes (a :: l) im d = Ok (ok :: rs, im2, d2).
Proof. intros H1 H2. cbn [writes]. rewrite H1. cbn [bind]. rewrite H2. reflexivity. Qed.

Lemma plane_loop_inv t p calls num : valid_bitpix (p_bitpix p) = true ->
  forall fs n info im w w' info' hs ax cs d, last_is w hs t ax cs d ->
  plane_loop status left_over t p calls num fs n info im w = (w', Ok info') ->
  exists os maps l rs im' d', Forall2 (makes t) fs os /\
    MakeMap_Model.make_planes t calls (map as_plane os) info = Ok (maps, info') /\
    map a_data l = map (fun m => stored (fst m)) maps /\ Forall (fun a => exists n, a_status a = status n) l /\
    writes l im d = Ok (rs, im', d') /\
    last_is w' hs t ax (cs ++ planes_cards p num n (produced (map fst os))) d'.
Proof.
  intros V. induction fs as [|f fs IH]; intros n info im w w' info' hs ax cs d L H; cbn [plane_loop] in H.
  - injection H as <- <-. exists [], [], [], [], im, d. cbn. rewrite app_nil_r. repeat split; auto.
  - step H. apply lift_inv in E. destruct E as [-> E]. destruct a as [[i|] mm].
    + step H. eapply virtual_facts_inv in E0; [|exact V|exact L].
      step H. apply lift_inv in E1. destruct E1 as [-> E1].
      step H. apply lift_inv in E2. destruct E2 as [-> E2]. destruct a1 as [m info1].
      step H. destruct a1 as [ok im1].
      eapply write_image_inv in E3; [|exact E0]. destruct E3 as (at1 & d1 & Ad & As & W & L1). cbn [fst snd] in W.
      eapply IH in H; [|exact L1]. destruct H as (os & maps & l & rs & im' & d' & F & M & Al & Sl & Wl & L').
      exists ((Some i, mm) :: os), ((m, negb (data_mapped info1)) :: maps), (at1 :: l), (ok :: rs), im', d'.
      split; [constructor; assumption|]. split.
      { cbn [map as_plane MakeMap_Model.make_planes pl_image option_map fst snd pl_minmax].
        rewrite E1. cbn [bind]. rewrite E2. cbn [bind]. rewrite M. reflexivity. }
      split; [cbn; now rewrite Ad, Al|]. split; [constructor; assumption|].
      split; [eapply writes_cons; eassumption|].
      cbn [map fst produced planes_cards]. now rewrite app_assoc.
    + eapply IH in H; [|exact L]. destruct H as (os & maps & l & rs & im' & d' & F & M & Al & Sl & Wl & L').
      exists ((None, mm) :: os), maps, l, rs, im', d'. split; [constructor; assumption|]. repeat split; assumption.
Qed.

Lemma make_planes_inv c t p w w' u : valid_bitpix (p_bitpix p) = true -> w_file w = new_file [] ->
  make_planes status left_over c t p w = (w', Ok u) ->
  let num := Z.of_nat (List.length (c_factories c)) in
  exists os maps limits d, Forall2 (makes t) (c_factories c) os /\
    make_map_planes t (c_samples c) (c_lines c) (p_blank p) (c_calls c) (map as_plane os) = Ok (maps, limits) /\
    written_by status (c_samples c) (c_lines c) num (map (fun m => stored (fst m)) maps) d /\
    w_file w' = new_file [Hdu t (image_axes (c_samples c) (c_lines c) num)
                            (header_cards c t p (produced (map fst os)) limits) d].
Proof.
  intros V L H num. unfold make_planes in H. fold num in H. cbv zeta in H.
  step H. eapply make_image_inv in E; [|exact L]. destruct E as [-> E].
  step H. eapply put_blank_inv in E0; [|exact E].
  step H. eapply put_string_inv in E1; [|exact E0].
  step H. eapply put_string_inv in E2; [|exact E1].
  step H. eapply put_string_inv in E3; [|exact E2].
  step H. eapply put_comments_inv in E4; [|exact E3].
  step H. eapply put_card_inv in E5; [|exact E4].
  step H. eapply plane_loop_inv in E6; [|exact V|exact E5].
  destruct E6 as (os & maps & l & rs & im' & d' & F & M & Al & Sl & Wl & L').
  exists os, maps, (if data_mapped a5 then Some (e_min (pi_extrema a5), e_max (pi_extrema a5)) else None), d'.
  split; [exact F|]. split.
  { unfold make_map_planes. rewrite M. reflexivity. }
  split.
  { exists l, rs, im'. auto. }
  unfold header_cards. fold num. rewrite app_nil_l, <- !app_assoc in L'.
  destruct (data_mapped a5).
  - destruct (e_min (pi_extrema a5)) as [mn|]; [|discriminate].
    destruct (e_max (pi_extrema a5)) as [mx|]; [|discriminate].
    step H. eapply put_datum_inv in E6; [|exact L']. eapply put_datum_inv in H; [|exact E6].
    unfold last_is in H. rewrite H. rewrite <- !app_assoc. reflexivity.
  - injection H as <- _. unfold last_is in L'. rewrite L'. rewrite app_nil_r. reflexivity.
Qed.

Lemma write_grid_inv c p w w' u h : w_file w = new_file [h] ->
  write_grid status left_over c p w = (w', Ok u) ->
  (c_grid c = None /\ w_file w' = new_file [h]) \/
  (exists g d, c_grid c = Some (Ok g) /\ written_by status (c_samples c) (c_lines c) 1 [stored (t := U8) g] d /\
     w_file w' = new_file [h; Hdu U8 (image_axes (c_samples c) (c_lines c) 1) (grid_cards c p) d]).
Proof.
  intros L H. unfold write_grid in H. destruct (c_grid c) as [grid|].
  2: { injection H as <- _. auto. }
  right. step H. eapply make_image_inv in E; [|exact L]. destruct E as [-> E].
  step H. eapply put_comments_inv in E0; [|exact E].
  step H. eapply put_card_inv in E1; [|exact E0].
  step H. eapply put_card_inv in E2; [|exact E1].
  step H. eapply put_card_inv in E3; [|exact E2].
  step H. eapply put_card_inv in E4; [|exact E3].
  step H. apply lift_inv in E5. destruct E5 as [-> E5]. subst grid.
  apply andthen_inv in H. destruct H as (w9 & [ok im1] & E5 & H). eapply write_image_inv in E5; [|exact E4].
  destruct E5 as (at1 & d1 & Ad & As & W & L1). cbn [fst snd] in W.
  injection H as <- _. eexists _, d1. split; [reflexivity|]. split.
  { exists [at1], [ok], im1. split; [cbn; now rewrite Ad|]. split; [repeat constructor; assumption|].
    eapply writes_cons; [exact W|reflexivity]. }
  unfold last_is in L1. rewrite L1. unfold grid_cards. rewrite app_nil_l, <- !app_assoc. reflexivity.
Qed.

Lemma type_valid b : valid_bitpix b = true -> type_of_bitpix b <> None.
Proof.
  unfold valid_bitpix, type_of_bitpix.
  destruct (b =? 8), (b =? 16), (b =? 32), (b =? 64), (b =? -32), (b =? -64); cbn; congruence.
Qed.

(** A command that reports success. *)
Theorem execute_success removable c w w' r :
  execute status left_over removable c w = (w', Ok r) ->
  let num := Z.of_nat (List.length (c_factories c)) in
  r = 0 /\
  exists p b t os maps limits d,
    populate_map_parameters (map f_source (c_factories c)) (c_params c) = Ok p /\
    get_bitpix p = Ok b /\ type_of_bitpix b = Some t /\ Forall2 (makes t) (c_factories c) os /\
    make_map_planes t (c_samples c) (c_lines c) (p_blank p) (c_calls c) (map as_plane os) = Ok (maps, limits) /\
    written_by status (c_samples c) (c_lines c) num (map (fun m => stored (fst m)) maps) d /\
    let h := Hdu t (image_axes (c_samples c) (c_lines c) num) (header_cards c t p (produced (map fst os)) limits) d in
    (c_grid c = None /\ w_file w' = new_file [h] \/
     exists g dg, c_grid c = Some (Ok g) /\ written_by status (c_samples c) (c_lines c) 1 [stored (t := U8) g] dg /\
       w_file w' = new_file [h; Hdu U8 (image_axes (c_samples c) (c_lines c) 1) (grid_cards c p) dg]).
Proof.
  intros H num. unfold execute in H. step H. apply lift_inv in E. destruct E as [-> E].
  step H. unfold unlink in E0. injection E0 as <- _.
  step H. unfold create_file in E0. step E0. injection E0 as <- _.
  step H. apply lift_inv in E0. destruct E0 as [-> E0].
  assert (V : valid_bitpix (p_bitpix a) = true /\ p_bitpix a = a3).
  { unfold get_bitpix in E0. destruct (valid_bitpix (p_bitpix a)); [|discriminate]. injection E0 as <-. auto. }
  destruct V as [V V']. assert (T := type_valid _ V). rewrite V' in T.
  destruct (type_of_bitpix a3) as [t|] eqn:Et; [|contradiction].
  step H. eapply make_planes_inv in E2; [|exact V|reflexivity].
  destruct E2 as (os & maps & limits & d & F & M & Wr & L).
  step H. eapply write_grid_inv in E2; [|exact L].
  injection H as <- <-. split; [reflexivity|].
  exists a, a3, t, os, maps, limits, d. repeat (split; [assumption|]). exact E2.
Qed.
End Inversion.

(** ** Sizes *)
Lemma bind_inv {A B} (x : outcome A) (f : A -> outcome B) b : bind x f = Ok b -> exists a, x = Ok a /\ f a = Ok b.
Proof. destruct x as [a| |]; cbn; intros H; try discriminate. eauto. Qed.
Lemma upd_len {A} (l : list A) n a : List.length (upd l n a) = List.length l.
Proof. revert n. induction l as [|h l IH]; intros [|n]; cbn; auto. Qed.

Lemma plot_calls_size {T : ctype} (rd : reader) (e : extrema T) calls : forall m info m' info',
  plot_calls rd e calls (m, info) = Ok (m', info') ->
  List.length m' = List.length m /\ pi_samples info' = pi_samples info /\ pi_lines info' = pi_lines info.
Proof.
  induction calls as [|[pt off] calls IH]; intros m info m' info' H; cbn [plot_calls] in H.
  - injection H as <- <-. auto.
  - apply bind_inv in H. destruct H as ([m1 i1] & P & H). apply IH in H.
    unfold plot in P. apply bind_inv in P. destruct P as ([ok d] & _ & P).
    apply bind_inv in P. destruct P as ([m2 i2] & Q & P). apply bind_inv in P. destruct P as (n & _ & P).
    injection P as <- <-. cbn in H.
    assert (S : List.length m2 = List.length m /\ pi_samples i2 = pi_samples info /\ pi_lines i2 = pi_lines info).
    { destruct (ok && in_range e d) in Q.
      - apply bind_inv in Q. destruct Q as (v & _ & Q). destruct (_ && _) in Q; [|discriminate].
        injection Q as <- <-. cbn. now rewrite upd_len.
      - injection Q as <- <-. auto. }
    intuition congruence.
Qed.
Lemma make_map_size {T : ctype} (rd : reader) (mm : extrema T) info calls m info' :
  make_map rd mm info calls = Ok (m, info') ->
  List.length m = Z.to_nat (wrap (pi_samples info * pi_lines info)) /\
  pi_samples info' = pi_samples info /\ pi_lines info' = pi_lines info.
Proof.
  unfold make_map. intros H. apply bind_inv in H. destruct H as (b & _ & H).
  apply bind_inv in H. destruct H as (e & _ & H). apply bind_inv in H. destruct H as ([m1 i1] & P & H).
  apply bind_inv in H. destruct H as (n & _ & H). injection H as <- <-.
  apply plot_calls_size in P. rewrite repeat_length in P. exact P.
Qed.
Lemma make_planes_size t calls planes : forall info maps info',
  MakeMap_Model.make_planes t calls planes info = Ok (maps, info') ->
  Forall (fun m => List.length (fst m) = Z.to_nat (wrap (pi_samples info * pi_lines info))) maps /\
  (Forall (fun p => pl_image p <> None) planes -> List.length maps = List.length planes).
Proof.
  induction planes as [|p planes IH]; intros info maps info' H; cbn [MakeMap_Model.make_planes] in H.
  - injection H as <- _. auto.
  - destruct (pl_image p) as [rd|] eqn:Ep.
    + apply bind_inv in H. destruct H as (e & _ & H). apply bind_inv in H. destruct H as ([m i1] & P & H).
      apply bind_inv in H. destruct H as ([ms i2] & Q & H). injection H as <- _.
      apply make_map_size in P. destruct P as (P & P1 & P2). apply IH in Q. rewrite P1, P2 in Q. destruct Q as [Q1 Q2].
      cbn [fst]. split; [constructor; assumption|]. intros F. inversion F; subst. cbn. auto.
    + apply IH in H. destruct H as [H1 H2]. split; [exact H1|]. intros F. inversion F; contradiction.
Qed.

(** ** A command that meets no obstacle *)
Section Progress.
Variable status : nat -> Z.
Variable left_over : nat -> disk datum.
Hypothesis fine : forall n, status n = 0.

Definition succeeds {A} (m : cmd A) (w : world) : Prop := exists w' a, m w = (w', Ok a).

Lemma then_succeeds {A B} (m : cmd A) (f : A -> cmd B) w :
  succeeds m w -> (forall w' a, m w = (w', Ok a) -> succeeds (f a) w') -> succeeds (andthen m f) w.
Proof. intros (w' & a & E) H. destruct (H w' a E) as (w2 & b & E2). exists w2, b. unfold andthen. now rewrite E. Qed.
Lemma ret_succeeds {A} (a : A) w : succeeds (ret a) w. Proof. do 2 eexists. reflexivity. Qed.
Lemma lift_succeeds {A} (a : A) w : succeeds (lift (Ok a)) w. Proof. do 2 eexists. reflexivity. Qed.
Lemma checked_succeeds w : succeeds (checked status) w.
Proof. unfold succeeds, checked, andthen, call. cbn. rewrite fine. do 2 eexists. reflexivity. Qed.
Lemma put_card_succeeds c w : succeeds (put_card status c) w.
Proof.
  apply then_succeeds; [apply checked_succeeds|]. intros. do 2 eexists. reflexivity.
Qed.
Lemma put_string_succeeds n v w : succeeds (put_string status n v) w.
Proof. unfold put_string. destruct (String.eqb v ""); [apply ret_succeeds|apply put_card_succeeds]. Qed.
Lemma put_double_succeeds n v w : succeeds (put_double status n v) w.
Proof. unfold put_double. destruct (is_nan v); [apply ret_succeeds|apply put_card_succeeds]. Qed.
Lemma put_datum_succeeds n t v w : succeeds (put_datum status n t v) w.
Proof. unfold put_datum. destruct (is_nan _); [apply ret_succeeds|apply put_card_succeeds]. Qed.
Lemma put_blank_succeeds t b w : succeeds (put_blank status t b) w.
Proof. unfold put_blank. destruct b; [destruct (c_integral _)|]; (apply ret_succeeds || apply put_card_succeeds). Qed.
Lemma put_comments_succeeds l : forall w, succeeds (put_comments status l) w.
Proof.
  induction l as [|c l IH]; intros w; [apply ret_succeeds|].
  apply then_succeeds; [apply put_card_succeeds|]. intros. apply IH.
Qed.
Lemma make_image_succeeds t s l p x w : succeeds (make_image status t s l p x) w.
Proof.
  unfold make_image. apply then_succeeds; [do 2 eexists; reflexivity|]. intros w1 r1 E1.
  unfold call in E1. injection E1 as <- <-. rewrite fine. cbn [Z.eqb].
  apply then_succeeds; [do 2 eexists; reflexivity|]. intros.
  apply then_succeeds; [destruct x; [apply checked_succeeds|apply ret_succeeds]|]. intros.
  apply then_succeeds; [apply checked_succeeds|]. intros.
  apply then_succeeds; [do 2 eexists; reflexivity|]. intros w5 r5 E5. unfold call in E5. injection E5 as <- <-.
  rewrite fine. apply ret_succeeds.
Qed.
Lemma virtual_facts_succeeds p n num i w : valid_bitpix (p_bitpix p) = true -> succeeds (virtual_facts status p n num i) w.
Proof.
  intros V. unfold virtual_facts. destruct (si_scaling i) as [[s o]|]; [|apply ret_succeeds].
  unfold get_bitpix. rewrite V. apply then_succeeds; [apply lift_succeeds|]. intros w1 b E. injection E as <- <-.
  destruct (p_bitpix p <? 0); [apply ret_succeeds|].
  apply then_succeeds; [apply put_string_succeeds|]. intros.
  destruct (num =? 1).
  - apply then_succeeds; [apply put_double_succeeds|]. intros.
    apply then_succeeds; [apply put_double_succeeds|]. intros. apply checked_succeeds.
  - apply then_succeeds; [apply put_card_succeeds|]. intros.
    apply then_succeeds; [apply put_card_succeeds|]. intros. apply put_card_succeeds.
Qed.

(** Writes never overflow. *)
Lemma write_total {E} size planes n (a : attempt E) d : (1 <= size)%nat -> (n <= planes)%nat ->
  Z.of_nat size * Z.of_nat planes < 2 ^ 63 - 1 ->
  exists (ok : bool) d', write a (at_plane size planes n) d = Ok (ok, at_plane size planes (if ok then S n else n), d') /\
    ((if ok then S n else n) <= planes)%nat.
Proof.
  intros S N M. unfold write. cbn [at_plane im_max im_fpixel im_nelements].
  destruct (Z.leb_spec (Z.of_nat size * Z.of_nat planes) (Z.of_nat n * Z.of_nat size + 1)) as [Q|Q].
  { exists false, d. auto. }
  assert (Hn : (n < planes)%nat) by nia.
  destruct (negb _).
  { exists false, d. auto. }
  destruct (negb (a_status a =? 0)).
  { eexists false, _. split; [reflexivity|assumption]. }
  assert (Z.of_nat n * Z.of_nat size + Z.of_nat size <= Z.of_nat size * Z.of_nat planes) by nia.
  destruct (Z.ltb_spec (Z.of_nat n * Z.of_nat size + 1 + Z.of_nat size) (2 ^ 63)); [|lia].
  eexists true, _. split; [|lia]. unfold at_plane. do 2 f_equal. f_equal. f_equal. lia.
Qed.

Lemma write_image_succeeds t size planes n data w hs t' ax cs d : (1 <= size)%nat -> (n <= planes)%nat ->
  Z.of_nat size * Z.of_nat planes < 2 ^ 63 - 1 -> last_is w hs t' ax cs d ->
  exists w' ok n', write_image status left_over t (at_plane size planes n) data w = (w', Ok (ok, at_plane size planes n')) /\
    (n' <= planes)%nat.
Proof.
  intros S N M L. unfold write_image, last_is in *. rewrite L, rev_unit. cbn [h_disk].
  match goal with |- context [write ?a _ _] => destruct (write_total size planes n a d S N M) as (ok & d' & -> & Q) end.
  do 3 eexists. split; [reflexivity|exact Q].
Qed.

Lemma plane_loop_succeeds t p calls num size planes : valid_bitpix (p_bitpix p) = true ->
  (1 <= size)%nat -> Z.of_nat size * Z.of_nat planes < 2 ^ 63 - 1 ->
  forall fs os, Forall2 (makes t) fs os -> forall n k info maps info' w hs t' ax cs d,
  (k <= planes)%nat -> last_is w hs t' ax cs d ->
  MakeMap_Model.make_planes t calls (map as_plane os) info = Ok (maps, info') ->
  succeeds (plane_loop status left_over t p calls num fs n info (at_plane size planes k)) w.
Proof.
  intros V S M. induction 1 as [|f [[i|] mm] fs os F Fs IH]; intros n k info maps info' w hs t' ax cs d K L H; cbn [plane_loop].
  - apply ret_succeeds.
  - unfold makes in F. rewrite F. apply then_succeeds; [apply lift_succeeds|]. intros w1 r1 E1. injection E1 as <- <-.
    apply then_succeeds; [now apply virtual_facts_succeeds|]. intros w2 r2 E2.
    eapply virtual_facts_inv in E2; [|exact V|exact L].
    cbn [map as_plane MakeMap_Model.make_planes pl_image option_map fst snd pl_minmax] in H.
    apply bind_inv in H. destruct H as (e & He & H). rewrite He.
    apply then_succeeds; [apply lift_succeeds|]. intros w3 r3 E3. injection E3 as <- <-.
    apply bind_inv in H. destruct H as ([m i1] & Hm & H). rewrite Hm.
    apply then_succeeds; [apply lift_succeeds|]. intros w4 r4 E4. injection E4 as <- <-.
    destruct (write_image_succeeds t size planes k m _ _ _ _ _ _ S K M E2) as (w5 & ok & k' & W & K').
    apply then_succeeds; [do 2 eexists; exact W|]. intros w6 r6 E6.
    assert (E6' := E6). rewrite W in E6'. injection E6' as <- <-.
    eapply write_image_inv in E6; [|exact E2]. destruct E6 as (a & d' & _ & _ & _ & L').
    apply bind_inv in H. destruct H as ([ms i2] & H & _).
    eapply IH; [exact K'|exact L'|exact H].
  - unfold makes in F. rewrite F. apply then_succeeds; [apply lift_succeeds|]. intros w1 r1 E1. injection E1 as <- <-.
    cbn [map as_plane MakeMap_Model.make_planes pl_image option_map fst snd] in H.
    eapply IH; [exact K|exact L|exact H].
Qed.

Lemma make_planes_succeeds c t p os maps limits size w : valid_bitpix (p_bitpix p) = true -> w_file w = new_file [] ->
  0 <= c_samples c -> 0 <= c_lines c -> Z.of_nat size = c_samples c * c_lines c -> (1 <= size)%nat ->
  (1 <= List.length (c_factories c))%nat ->
  Z.of_nat size * Z.of_nat (List.length (c_factories c)) < 2 ^ 63 - 1 ->
  Forall2 (makes t) (c_factories c) os ->
  make_map_planes t (c_samples c) (c_lines c) (p_blank p) (c_calls c) (map as_plane os) = Ok (maps, limits) ->
  succeeds (make_planes status left_over c t p) w.
Proof.
  intros V L S0 L0 Sz S P M F H. unfold make_planes.
  apply then_succeeds; [apply make_image_succeeds|]. intros w1 im E1. eapply make_image_inv in E1; [|exact L].
  destruct E1 as [-> L1].
  apply then_succeeds; [apply put_blank_succeeds|]. intros w2 r2 E2. eapply put_blank_inv in E2; [|exact L1].
  apply then_succeeds; [apply put_string_succeeds|]. intros w3 r3 E3. eapply put_string_inv in E3; [|exact E2].
  apply then_succeeds; [apply put_string_succeeds|]. intros w4 r4 E4. eapply put_string_inv in E4; [|exact E3].
  apply then_succeeds; [apply put_string_succeeds|]. intros w5 r5 E5. eapply put_string_inv in E5; [|exact E4].
  apply then_succeeds; [apply put_comments_succeeds|]. intros w6 r6 E6. eapply put_comments_inv in E6; [|exact E5].
  apply then_succeeds; [apply put_card_succeeds|]. intros w7 r7 E7. eapply put_card_inv in E7; [|exact E6].
  unfold make_map_planes in H. apply bind_inv in H. destruct H as ([ms i1] & H & _).
  rewrite (new_state _ _ _ size) by lia.
  apply then_succeeds.
  - eapply plane_loop_succeeds; try eassumption. lia.
  - intros w8 info E8. destruct (data_mapped info) eqn:D; [|apply ret_succeeds].
    unfold data_mapped, is_valid in D.
    destruct (e_min (pi_extrema info)); [|discriminate]. destruct (e_max (pi_extrema info)); [|discriminate].
    apply then_succeeds; [apply put_datum_succeeds|]. intros. apply put_datum_succeeds.
Qed.

Lemma write_grid_succeeds c p size w h : w_file w = new_file [h] ->
  0 <= c_samples c -> 0 <= c_lines c -> Z.of_nat size = c_samples c * c_lines c -> (1 <= size)%nat ->
  Z.of_nat size < 2 ^ 63 - 1 -> (forall g, c_grid c = Some g -> exists l, g = Ok l) ->
  succeeds (write_grid status left_over c p) w.
Proof.
  intros L S0 L0 Sz S M G. unfold write_grid. destruct (c_grid c) as [g|]; [|apply ret_succeeds].
  destruct (G g eq_refl) as [l ->].
  apply then_succeeds; [apply make_image_succeeds|]. intros w1 im E1. eapply make_image_inv in E1; [|exact L].
  destruct E1 as [-> L1].
  apply then_succeeds; [apply put_comments_succeeds|]. intros w2 r2 E2. eapply put_comments_inv in E2; [|exact L1].
  apply then_succeeds; [apply put_card_succeeds|]. intros w3 r3 E3. eapply put_card_inv in E3; [|exact E2].
  apply then_succeeds; [apply put_card_succeeds|]. intros w4 r4 E4. eapply put_card_inv in E4; [|exact E3].
  apply then_succeeds; [apply put_card_succeeds|]. intros w5 r5 E5. eapply put_card_inv in E5; [|exact E4].
  apply then_succeeds; [apply put_card_succeeds|]. intros w6 r6 E6. eapply put_card_inv in E6; [|exact E5].
  apply then_succeeds; [apply lift_succeeds|]. intros w7 r7 E7. injection E7 as <- <-.
  change 1 with (Z.of_nat 1). rewrite (new_state _ _ 1 size) by lia.
  destruct (write_image_succeeds U8 size 1 0 l w6 _ _ _ _ _ S ltac:(lia) ltac:(lia) E6) as (w8 & ok & k & W & _).
  apply then_succeeds; [do 2 eexists; exact W|]. intros. apply ret_succeeds.
Qed.

Theorem execute_succeeds removable c p b t os maps limits size w :
  populate_map_parameters (map f_source (c_factories c)) (c_params c) = Ok p ->
  get_bitpix p = Ok b -> type_of_bitpix b = Some t ->
  0 <= c_samples c -> 0 <= c_lines c -> Z.of_nat size = c_samples c * c_lines c -> (1 <= size)%nat ->
  (1 <= List.length (c_factories c))%nat ->
  Z.of_nat size * Z.of_nat (List.length (c_factories c)) < 2 ^ 63 - 1 ->
  Forall2 (makes t) (c_factories c) os ->
  make_map_planes t (c_samples c) (c_lines c) (p_blank p) (c_calls c) (map as_plane os) = Ok (maps, limits) ->
  (forall g, c_grid c = Some g -> exists l, g = Ok l) ->
  exists w', execute status left_over removable c w = (w', Ok 0).
Proof.
  intros Hp Hb Ht S0 L0 Sz S P M F H G.
  assert (V : valid_bitpix (p_bitpix p) = true).
  { unfold get_bitpix in Hb. destruct (valid_bitpix (p_bitpix p)); [reflexivity|discriminate]. }
  assert (Q : succeeds (execute status left_over removable c) w).
  { unfold execute. rewrite Hp. apply then_succeeds; [apply lift_succeeds|]. intros w1 r1 E1. injection E1 as <- <-.
    apply then_succeeds; [do 2 eexists; reflexivity|]. intros w2 r2 E2.
    apply then_succeeds.
    { apply then_succeeds; [apply checked_succeeds|]. intros. do 2 eexists. reflexivity. }
    intros w3 r3 E3. unfold create_file in E3. step E3. injection E3 as <- _.
    rewrite Hb. apply then_succeeds; [apply lift_succeeds|]. intros w4 r4 E4. injection E4 as <- <-. rewrite Ht.
    apply then_succeeds; [eapply make_planes_succeeds; try eassumption; reflexivity|]. intros w5 r5 E5.
    eapply make_planes_inv in E5; [|exact V|reflexivity]. destruct E5 as (? & ? & ? & ? & _ & _ & _ & L5).
    apply then_succeeds; [eapply write_grid_succeeds; try eassumption; nia|]. intros. apply ret_succeeds. }
  destruct Q as (w' & r & Q). exists w'. assert (Q' := Q). apply execute_success in Q'. destruct Q' as [-> _]. exact Q.
Qed.
End Progress.

(** ** Every plane in its place *)
Lemma all_accepted {E} size planes (l : list (attempt E)) : forall n, (n + List.length l <= planes)%nat ->
  Forall (fun a => List.length (a_data a) = size /\ a_status a = 0) l ->
  accepted l (verdicts size planes n l) = map a_data l.
Proof.
  induction l as [|a l IH]; intros n N F; [reflexivity|]. inversion F as [|? ? [A S] Fl]; subst. cbn [List.length] in N.
  cbn [verdicts]. rewrite S, Nat.eqb_refl. destruct (Nat.ltb_spec n planes); [|lia].
  cbn [accepted map andb Z.eqb]. f_equal. apply IH; [lia|assumption].
Qed.
Lemma written_all status samples lines planes size maps d : (forall n, status n = 0) ->
  0 <= samples -> 0 <= lines -> Z.of_nat size = samples * lines -> (2 <= size)%nat -> (1 <= planes)%nat ->
  samples * lines * Z.of_nat planes < 2 ^ 63 - 1 -> (List.length maps <= planes)%nat ->
  Forall (fun m => List.length m = size) maps ->
  written_by status samples lines (Z.of_nat planes) maps d ->
  forall j m, nth_error maps j = Some m -> occupies d (Z.of_nat j * Z.of_nat size) m.
Proof.
  intros fine S0 L0 Sz S P M N F (l & results & im & D & St & W) j m Hj.
  assert (R : Forall real_size l).
  { apply Forall_forall. intros a Ha. unfold real_size. rewrite Forall_forall in F.
    rewrite (F (a_data a)) by (rewrite <- D; now apply in_map). unfold size_mod. nia. }
  destruct (image_writes samples lines planes size l (fun _ => None) S0 L0 Sz S P M R) as (im' & d' & W' & K & Q & _).
  rewrite W in W'. injection W' as _ _ <-.
  rewrite all_accepted in Q.
  - destruct (Q j m) as [_ O]; [now rewrite D|exact O].
  - rewrite <- D, map_length in N. lia.
  - apply Forall_forall. intros a Ha. rewrite Forall_forall in F, St. split.
    + apply F. rewrite <- D. now apply in_map.
    + destruct (St a Ha) as [n ->]. apply fine.
Qed.

Lemma makes_unique t fs os : Forall2 (makes t) fs os -> forall os', Forall2 (makes t) fs os' -> os = os'.
Proof.
  induction 1 as [|f o fs os F Fs IH]; intros os' H; inversion H as [|? o' ? ? F']; subst; [reflexivity|].
  f_equal; [|now apply IH]. unfold makes in *. rewrite F in F'. now injection F'.
Qed.

Lemma makes_length t fs os : Forall2 (makes t) fs os -> List.length fs = List.length os.
Proof. induction 1 as [|f o fs os _ _ IH]; [reflexivity|]. cbn [List.length]. now rewrite IH. Qed.

Theorem execute_complete status left_over removable c p b t os maps limits size w :
  (forall n, status n = 0) ->
  populate_map_parameters (map f_source (c_factories c)) (c_params c) = Ok p ->
  get_bitpix p = Ok b -> type_of_bitpix b = Some t ->
  0 <= c_samples c -> 0 <= c_lines c -> Z.of_nat size = c_samples c * c_lines c -> (2 <= size)%nat ->
  (1 <= List.length (c_factories c))%nat ->
  Z.of_nat size * Z.of_nat (List.length (c_factories c)) < 2 ^ 63 - 1 ->
  Forall2 (makes t) (c_factories c) os -> Forall (fun o => fst o <> None) os ->
  make_map_planes t (c_samples c) (c_lines c) (p_blank p) (c_calls c) (map as_plane os) = Ok (maps, limits) ->
  (forall g, c_grid c = Some g -> exists l, g = Ok l /\ List.length l = size) ->
  exists w' d rest, execute status left_over removable c w = (w', Ok 0) /\
    w_file w' = new_file (Hdu t (image_axes (c_samples c) (c_lines c) (Z.of_nat (List.length (c_factories c))))
                            (header_cards c t p (produced (map fst os)) limits) d :: rest) /\
    List.length maps = List.length (c_factories c) /\ holds_planes size maps d /\
    match c_grid c with
    | None => rest = []
    | Some g => exists l dg, g = Ok l /\ occupies dg 0 (stored (t := U8) l) /\
        rest = [Hdu U8 (image_axes (c_samples c) (c_lines c) 1) (grid_cards c p) dg]
    end.
Proof.
  intros fine Hp Hb Ht S0 L0 Sz S P M F NN H G.
  destruct (execute_succeeds status left_over fine removable c p b t os maps limits size w) as [w' E]; try assumption; try lia.
  { intros g Hg. destruct (G g Hg) as (l & -> & _). eauto. }
  assert (E' := E). apply execute_success in E'.
  destruct E' as [_ (p' & b' & t' & os' & maps' & limits' & d & Hp' & Hb' & Ht' & F' & H' & W & L)].
  rewrite Hp in Hp'. injection Hp' as <-. rewrite Hb in Hb'. injection Hb' as <-. rewrite Ht in Ht'. injection Ht' as <-.
  rewrite <- (makes_unique _ _ _ F _ F') in *. rewrite H in H'. injection H' as <- <-.
  assert (Len : List.length os = List.length (c_factories c)) by (symmetry; exact (makes_length _ _ _ F)).
  assert (Mz : Forall (fun m => List.length (fst m) = size) maps /\ List.length maps = List.length (c_factories c)).
  { unfold make_map_planes in H. apply bind_inv in H. destruct H as ([ms i1] & H & H2). apply make_planes_size in H.
    destruct H as [H3 H4]. assert (maps = ms) as -> by (cbn in H2; congruence). split.
    - revert H3. apply Forall_impl. intros m ->. cbn. unfold wrap. rewrite Z.mod_small by (unfold size_mod; nia). lia.
    - rewrite H4, map_length; [exact Len|]. apply Forall_forall. intros x Hx. apply in_map_iff in Hx.
      destruct Hx as (o & <- & Ho). rewrite Forall_forall in NN. specialize (NN o Ho). cbn in *. destruct (fst o); [discriminate|contradiction]. }
  destruct Mz as [Mz Ml].
  assert (Hold : holds_planes size maps d).
  { intros j m Hj. rewrite Forall_forall in Mz. split; [apply Mz; eapply nth_error_In; eassumption|].
    eapply (written_all status (c_samples c) (c_lines c) (List.length (c_factories c)) size); try eassumption; try nia.
    - now rewrite map_length, Ml.
    - apply Forall_forall. intros x Hx. apply in_map_iff in Hx. destruct Hx as (o & <- & Ho). unfold stored.
      rewrite map_length. now apply Mz.
    - now rewrite nth_error_map, Hj. }
  destruct L as [[Gn L]|(g & dg & Gs & Wg & L)].
  - exists w', d, []. rewrite Gn. auto.
  - exists w', d. eexists. rewrite Gs. repeat (split; [eassumption|]).
    exists g, dg. split; [reflexivity|]. split; [|reflexivity].
    destruct (G _ Gs) as (l & El & Ll). injection El as <-.
    change 0 with (Z.of_nat 0 * Z.of_nat size).
    eapply (written_all status (c_samples c) (c_lines c) 1 size); try eassumption; try nia; cbn; auto.
    constructor; [|constructor]. unfold stored. now rewrite map_length.
Qed.

(** ** C62 *)
Lemma lift_throw {A} (o : outcome A) w : (forall a, o <> Ok a) -> exists o', lift o w = (w, o') /\ forall a, o' <> Ok a.
Proof. intros H. exists o. split; [reflexivity|exact H]. Qed.
Theorem unpopulated status left_over removable c w :
  (forall p, populate_map_parameters (map f_source (c_factories c)) (c_params c) <> Ok p) ->
  exists o, execute status left_over removable c w = (w, o) /\ forall r, o <> Ok r.
Proof.
  intros H. unfold execute, andthen at 1, lift.
  destruct (populate_map_parameters _ _) as [p| |]; [now destruct (H p)| |]; eexists; (split; [reflexivity|discriminate]).
Qed.
Theorem no_bitpix status left_over removable c p w :
  populate_map_parameters (map f_source (c_factories c)) (c_params c) = Ok p -> get_bitpix p = Throw runtime_error ->
  exists w', execute status left_over removable c w = (w', Throw runtime_error) /\
    w_file w' = (if status (w_calls w) =? 0 then new_file [] else if removable then no_file else w_file w).
Proof.
  intros Hp Hb. unfold execute, andthen at 1, lift at 1. rewrite Hp.
  unfold andthen at 1, unlink. unfold andthen at 1, create_file. unfold andthen at 1, checked.
  unfold andthen at 1, call. cbn [w_calls w_file].
  destruct (status (w_calls w) =? 0).
  - unfold ret. unfold andthen, lift. rewrite Hb. eexists. split; reflexivity.
  - unfold raise. eexists. split; reflexivity.
Qed.

(** ** C72 *)
Lemma run_commands_all l : forall r n, Forall (fun o => exists z, o = Ok z) l ->
  run_commands l r n = (Ok (if forallb (fun o => match o with Ok z => z =? 0 | _ => false end) l then r else 1),
                        (n + List.length l)%nat) \/ r = 1 /\ run_commands l r n = (Ok 1, (n + List.length l)%nat).
Proof.
  induction l as [|o l IH]; intros r n F; cbn; [left; now rewrite Nat.add_0_r|].
  inversion F as [|? ? [z ->] Fl]; subst. rewrite Nat.add_succ_r. destruct (z =? 0) eqn:Z0; cbn.
  - apply (IH r (S n) Fl).
  - left. destruct (IH 1 (S n) Fl) as [->|[_ ->]]; [|reflexivity]. destruct (forallb _ l); reflexivity.
Qed.
Lemma run_commands_throw l l' e : Forall (fun o => exists z, o = Ok z) l -> forall r n,
  run_commands (l ++ Throw e :: l') r n = (Throw e, (n + S (List.length l))%nat).
Proof.
  induction 1 as [|o l [z ->] F IH]; intros r n; cbn.
  - f_equal; lia.
  - rewrite IH. f_equal; lia.
Qed.
Lemma parse_files_true l : parse_files l = Ok true <-> Forall (eq (Ok 0)) l.
Proof.
  induction l as [|o l IH]; cbn; [split; constructor|].
  destruct o as [z| |]; cbn.
  - destruct (Z.eqb_spec z 0) as [->|N].
    + rewrite IH. split; [now constructor|]. now inversion 1.
    + split; [discriminate|]. inversion 1. congruence.
  - split; [discriminate|]. inversion 1. discriminate.
  - split; [discriminate|]. inversion 1. discriminate.
Qed.
Lemma run_commands_zero l : forall r n m, 0 <= r -> run_commands l r n = (Ok 0, m) ->
  r = 0 /\ Forall (eq (Ok 0)) l /\ m = (n + List.length l)%nat.
Proof.
  induction l as [|o l IH]; intros r n m R H; cbn in *.
  - injection H as -> <-. split; [reflexivity|]. split; [constructor|lia].
  - destruct o as [z| |]; try discriminate. destruct (Z.eqb_spec z 0) as [->|N].
    + apply IH in H; [|assumption]. destruct H as (-> & F & ->). split; [reflexivity|]. split; [now constructor|lia].
    + apply IH in H; [|lia]. destruct H as (? & _). lia.
Qed.

Lemma main_ready config enoent cl parsed commands : ready config enoent cl parsed ->
  main config enoent cl parsed commands =
  match run_commands commands 0 0 with (Throw _, n) => (Ok (-1), n) | b => b end.
Proof.
  intros (C & -> & P). apply parse_files_true in P. unfold main.
  assert (exists r, config = Ok r /\ negb (r =? 0) && negb enoent = false) as (r & -> & ->).
  { destruct C as [->|[-> [r ->]]]; eexists; (split; [reflexivity|]); [reflexivity|apply andb_false_r]. }
  rewrite P. now destruct (run_commands commands 0 0) as [[| |] n].
Qed.
Theorem main_zero config enoent cl parsed commands n :
  main config enoent cl parsed commands = (Ok 0, n) <->
  ready config enoent cl parsed /\ Forall (eq (Ok 0)) commands /\ n = List.length commands.
Proof.
  split.
  - intros H. assert (R : ready config enoent cl parsed).
    { unfold ready. unfold main in H. destruct config as [r| |]; try discriminate.
      destruct (negb (r =? 0) && negb enoent) eqn:C; [discriminate|].
      destruct cl as [[|]| |]; try discriminate.
      destruct (parse_files parsed) as [[|]| |] eqn:P; try discriminate. apply parse_files_true in P.
      split; [|auto]. destruct (Z.eqb_spec r 0) as [->|]; [auto|]. right. destruct enoent; [eauto|discriminate]. }
    split; [exact R|]. rewrite main_ready in H by exact R.
    destruct (run_commands commands 0 0) as [[z|e|u] m] eqn:Q; try discriminate.
    injection H as -> ->. apply run_commands_zero in Q; [|lia]. tauto.
  - intros (R & F & ->). rewrite main_ready by exact R.
    assert (F' : Forall (fun o => exists z : Z, o = Ok z) commands).
    { revert F. apply Forall_impl. intros o <-. eauto. }
    destruct (run_commands_all commands 0 0 F') as [->|[? _]]; [|discriminate].
    assert (forallb (fun o => match o with Ok z => z =? 0 | _ => false end) commands = true) as ->; [|reflexivity].
    apply forallb_forall. rewrite Forall_forall in F. intros o Ho. now rewrite <- (F o Ho).
Qed.
Theorem main_later config enoent cl parsed commands : ready config enoent cl parsed ->
  Forall (fun o => exists z : Z, o = Ok z) commands -> ~ Forall (eq (Ok 0)) commands ->
  main config enoent cl parsed commands = (Ok 1, List.length commands).
Proof.
  intros R F N. rewrite main_ready by exact R.
  destruct (run_commands_all commands 0 0 F) as [->|[? _]]; [|discriminate].
  destruct (forallb _ commands) eqn:A; [|reflexivity]. exfalso. apply N. apply Forall_forall. intros o Ho.
  rewrite forallb_forall in A. specialize (A o Ho). destruct o; try discriminate. apply Z.eqb_eq in A. now subst.
Qed.
Theorem main_exception config enoent cl parsed l e l' : ready config enoent cl parsed ->
  Forall (fun o => exists z : Z, o = Ok z) l ->
  main config enoent cl parsed (l ++ Throw e :: l') = (Ok (-1), S (List.length l)).
Proof. intros R F. rewrite main_ready by exact R. now rewrite run_commands_throw. Qed.
Theorem main_not_ready config enoent cl parsed commands : ~ ready config enoent cl parsed ->
  (forall u, config <> UB u) -> (forall u, cl <> UB u) -> (forall u, ~ In (UB u) parsed) ->
  exists z, z <> 0 /\ main config enoent cl parsed commands = (Ok z, 0%nat).
Proof.
  intros R C1 C2 C3. unfold main.
  destruct config as [r|e|u]; [|exists (-1); split; [lia|reflexivity]|now destruct (C1 u)].
  destruct (negb (r =? 0) && negb enoent) eqn:C; [exists (-1); split; [lia|reflexivity]|].
  destruct cl as [[|]|e|u]; [|exists 1; split; [lia|reflexivity]|exists (-1); split; [lia|reflexivity]|now destruct (C2 u)].
  destruct (parse_files parsed) as [[|]|e|u] eqn:P; [|exists (-1); split; [lia|reflexivity]|exists (-1); split; [lia|reflexivity]|].
  - exfalso. apply R. unfold ready. apply parse_files_true in P.
    split; [|auto]. destruct (Z.eqb_spec r 0) as [->|]; [auto|]. right. destruct enoent; [eauto|discriminate].
  - exfalso. clear -P C3. induction parsed as [|o l IH]; cbn in P; [discriminate|].
    destruct o as [z|e|v]; cbn in P; [|discriminate|now apply (C3 v); left].
    destruct (z =? 0); [|discriminate]. apply IH; [|exact P]. intros v Hv. apply (C3 v). now right.
Qed.

(** ** C61 *)
Lemma mosaic_loop_ok l : Forall (fun f => exists e, photo_make f = Ok e) l -> forall ex vmin vmax,
  mosaic_loop l ex vmin vmax =
  Ok (fold_left ex_merge (map pl_ex l) ex,
      forallb (fun f => match e_min (pl_ex f) with Some _ => true | None => false end) l && vmin,
      forallb (fun f => match e_max (pl_ex f) with Some _ => true | None => false end) l && vmax).
Proof.
  induction 1 as [|f l [e E] F IH]; intros ex vmin vmax; cbn [mosaic_loop map fold_left forallb]; [reflexivity|].
  rewrite E. cbn [bind]. rewrite IH. do 2 f_equal; [f_equal|];
    [destruct (e_min (pl_ex f))|destruct (e_max (pl_ex f))]; cbn; rewrite ?andb_false_r; reflexivity.
Qed.
Lemma merged_no_minimum (l : list (extrema (ct F64))) : forall ex, e_min ex = None -> e_min (fold_left ex_merge l ex) = None.
Proof.
  induction l as [|x l IH]; intros ex H; cbn [fold_left]; [exact H|]. apply IH. unfold ex_merge. cbn [e_min]. rewrite H. now destruct (e_min x).
Qed.
Theorem mosaic_minimum_undefined l own :
  Forall (fun f => exists e, photo_make f = Ok e) l -> Forall (fun f => e_min (pl_ex f) <> None) l ->
  mosaic_make l own = UB ub_optional.
Proof.
  intros F M. unfold mosaic_make. rewrite mosaic_loop_ok by exact F. cbn [bind].
  assert (forallb (fun f => match e_min (pl_ex f) with Some _ => true | None => false end) l = true) as ->.
  { apply forallb_forall. intros f Hf. rewrite Forall_forall in M. specialize (M f Hf). now destruct (e_min (pl_ex f)). }
  rewrite merged_no_minimum by reflexivity. reflexivity.
Qed.

Lemma fle_refl (x : double) : is_nan x = false -> fle x x = true.
Proof. intros H. rewrite fle_spec by assumption. apply Rle_bool_true. lra. Qed.
Lemma fle_trans (x y z : double) : fle x y = true -> fle y z = true -> fle x z = true.
Proof.
  intros A B. destruct (fle_not_nan _ _ A) as [Nx _]. destruct (fle_not_nan _ _ B) as [_ Nz].
  rewrite fle_spec by assumption. apply Rle_bool_true. apply fle_fval in A. apply fle_fval in B. lra.
Qed.
Lemma fle_total (x y : double) : is_nan x = false -> is_nan y = false -> flt x y = false -> fle y x = true.
Proof.
  intros X Y. rewrite flt_spec, fle_spec by assumption. case Rlt_bool_spec; [discriminate|].
  intros H _. now apply Rle_bool_true.
Qed.
Lemma flt_fle (x y : double) : flt x y = true -> fle x y = true.
Proof.
  intros H. assert (is_nan x = false) by (destruct (is_nan x) eqn:E; [rewrite flt_nan_l in H by exact E; discriminate|reflexivity]).
  assert (is_nan y = false) by (destruct (is_nan y) eqn:E; [rewrite flt_nan_r in H by exact E; discriminate|reflexivity]).
  rewrite flt_spec in H by assumption. rewrite fle_spec by assumption. revert H. case Rlt_bool_spec; [|discriminate].
  intros. apply Rle_bool_true. lra.
Qed.

Lemma merged_maximum (l : list photo_limits) (ms : list double) : Forall2 (fun f m => e_max (pl_ex f) = Some m) l ms ->
  Forall (fun m => is_nan m = false) ms ->
  forall (ex : extrema (ct F64)) (x : double), e_max ex = Some x -> is_nan x = false ->
  exists m : double, e_max (fold_left ex_merge (map pl_ex l) ex) = Some m /\ greatest (x :: ms) m.
Proof.
  induction 1 as [|f m l ms F Fs IH]; intros N ex x E X; cbn.
  - exists x. split; [exact E|]. split; [now left|]. intros y [->|[]]. now apply fle_refl.
  - inversion N as [|? ? Nm Ns]; subst.
    destruct (flt x m) eqn:C.
    + destruct (IH Ns (ex_merge ex (pl_ex f)) m) as (r & R & [I G]); [|exact Nm|].
      { unfold ex_merge. cbn [e_max]. rewrite F, E. change (c_lt (ct F64) x m) with (flt x m). now rewrite C. }
      exists r. split; [exact R|]. split; [now right|]. intros y [<-|Hy]; [|now apply G].
      eapply fle_trans; [apply flt_fle; exact C|]. apply G. now left.
    + destruct (IH Ns (ex_merge ex (pl_ex f)) x) as (r & R & [I G]); [|exact X|].
      { unfold ex_merge. cbn [e_max]. rewrite F, E. change (c_lt (ct F64) x m) with (flt x m). now rewrite C. }
      exists r. split; [exact R|]. split; [destruct I; [now left|now do 2 right]|].
      intros y [<-|[<-|Hy]].
      * apply G. now left.
      * eapply fle_trans; [apply (fle_total x m X Nm C)|]. apply G. now left.
      * apply G. now right.
Qed.
Theorem mosaic_maximum l (ms : list double) (own : extrema (ct F64)) :
  l <> [] -> Forall (fun f => exists e, photo_make f = Ok e) l -> Exists (fun f => e_min (pl_ex f) = None) l ->
  Forall2 (fun f m => e_max (pl_ex f) = Some m) l ms -> Forall (fun m => is_nan m = false) ms -> e_max own = None ->
  exists m : double, mosaic_make l own = Ok (Extrema (e_min own) (Some m)) /\ greatest ms m.
Proof.
  intros NE F X Fm N O. unfold mosaic_make. rewrite mosaic_loop_ok by exact F. cbn [bind].
  assert (forallb (fun f => match e_min (pl_ex f) with Some _ => true | None => false end) l = false) as ->.
  { apply not_true_is_false. intros H. rewrite forallb_forall in H. apply Exists_exists in X. destruct X as (f & Hf & E).
    specialize (H f Hf). now rewrite E in H. }
  assert (forallb (fun f => match e_max (pl_ex f) with Some _ => true | None => false end) l = true) as ->.
  { clear -Fm. induction Fm as [|f m l ms E Fs IH]; [reflexivity|]. cbn [forallb]. now rewrite E. }
  cbn [andb bind].
  destruct Fm as [|f m l ms E Fs]; [contradiction|]. inversion N as [|? ? Nm Ns]; subst.
  destruct (merged_maximum l ms Fs Ns (ex_merge ex_empty (pl_ex f)) m) as (r & R & G); [|exact Nm|].
  { unfold ex_merge, ex_empty. cbn [e_max]. now rewrite E. }
  cbn [map fold_left]. rewrite R. unfold factory_maximum. rewrite O. unfold ex_set_max, validate_maximum.
  assert (is_nan (r : double) = false) as ->.
  { destruct G as [I _]. rewrite Forall_forall in N. apply N. exact I. }
  exists r. split; [reflexivity|exact G].
Qed.
Theorem mosaic_neither l own : Forall (fun f => exists e, photo_make f = Ok e) l ->
  Exists (fun f => e_min (pl_ex f) = None) l -> Exists (fun f => e_max (pl_ex f) = None) l -> mosaic_make l own = Ok own.
Proof.
  intros F X Y. unfold mosaic_make. rewrite mosaic_loop_ok by exact F. cbn [bind].
  assert (forallb (fun f => match e_min (pl_ex f) with Some _ => true | None => false end) l = false) as ->.
  { apply not_true_is_false. intros H. rewrite forallb_forall in H. apply Exists_exists in X. destruct X as (f & Hf & E).
    specialize (H f Hf). now rewrite E in H. }
  assert (forallb (fun f => match e_max (pl_ex f) with Some _ => true | None => false end) l = false) as ->.
  { apply not_true_is_false. intros H. rewrite forallb_forall in H. apply Exists_exists in Y. destruct Y as (f & Hf & E).
    specialize (H f Hf). now rewrite E in H. }
  reflexivity.
Qed.

(** ** Failures that go unreported *)
(** A map of two samples and one line with one plane of 16 bit data; nothing is
    plotted. *)
Definition nothing_read : reader := fun _ _ => Ok (false, B754_nan).
Definition blank_plane : factory := Factory cosines (fun _ => Ok (Some (SImage nothing_read None), ex_empty)).
Definition null_plane : factory := Factory cosines (fun _ => Ok (None, ex_empty)).
Definition short_params : params := Params 0 16 (fun _ => EmptyString) (fun _ => None) (Some 7) [] [] [] (fun _ => false).
Definition small_map (fs : list factory) : command := Command 2 1 "Test" [] None fs short_params.
Definition fails_at (k n : nat) : Z := if (n =? k)%nat then 106 else 0.

Definition peek (es : list Z) (f : file) : option (list Z * list card * list (option datum)) :=
  match f with new_file [h] => Some (h_axes h, h_cards h, map (h_disk h) es) | _ => None end.
Lemma peek_inv es f ax cs vs : peek es f = Some (ax, cs, vs) ->
  exists h, f = new_file [h] /\ h_axes h = ax /\ h_cards h = cs /\ map (h_disk h) es = vs.
Proof. destruct f as [| |[|h [|]]]; cbn [peek]; try discriminate. intros [= <- <- <-]. eauto. Qed.
Lemma write_failure_unreported :
  let r := execute (fails_at 6) (fun _ _ => None) true (small_map [blank_plane]) (World old_file 0) in
  snd r = Ok 0 /\ exists h, w_file (fst r) = new_file [h] /\ h_axes h = [2; 1] /\
    h_cards h = [key_int "BLANK" 7; card_projection "Test"] /\ map (h_disk h) [1; 2] = [None; None].
Proof.
  split; [vm_compute; reflexivity|]. apply peek_inv.
  vm_cast_no_check (eq_refl (Some ([2; 1], [key_int "BLANK" 7; card_projection "Test"], [None; None] : list (option datum)))).
Qed.
Lemma null_image_shifts left_over :
  let r := execute (fun _ => 0) left_over true (small_map [null_plane; blank_plane]) (World old_file 0) in
  let seven := Some (existT _ I16 7 : datum) in
  snd r = Ok 0 /\ exists h, w_file (fst r) = new_file [h] /\ h_axes h = [2; 1; 2] /\
    h_cards h = [key_int "BLANK" 7; card_projection "Test"] /\ map (h_disk h) [1; 2; 3; 4] = [seven; seven; None; None].
Proof.
  split; [vm_compute; reflexivity|]. apply peek_inv.
  vm_cast_no_check (eq_refl (peek [1; 2; 3; 4] (w_file (fst (execute (fun _ => 0) left_over true (small_map [null_plane; blank_plane]) (World old_file 0)))))).
Qed.
