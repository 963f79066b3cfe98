(** Proofs about the command line. *)
From Coq Require Import List ZArith Bool String Ascii Lia.
From Verif Require Import Base Cli_Model Cli_Spec.
Import ListNotations.
Open Scope string_scope.

Lemma dash_spec s : dash s = true <-> dashed s.
Proof.
  unfold dashed. destruct s as [|c s]; cbn.
  - split; [discriminate|]. intros [r H]. discriminate.
  - rewrite Ascii.eqb_eq. split.
    + intros ->. exists s. reflexivity.
    + intros [r H]. cbn in H. now injection H.
Qed.

Lemma dash_false s : ~ dashed s -> dash s = false.
Proof. intros H. destruct (dash s) eqn:E; auto. apply dash_spec in E. contradiction. Qed.

(** Once "--" was seen nothing is examined any more. *)
Lemma rest fuel : forall args arg end_,
  (end_ <= List.length args)%nat -> (arg <= end_ \/ arg = List.length args)%nat ->
  (List.length args - arg < fuel)%nat ->
  cli_loop fuel args arg end_ true = Ok (inr (args, end_)).
Proof.
  induction fuel as [|k IH]; intros args arg end_ He Ha Hf; [lia|]. cbn [cli_loop].
  destruct (Nat.eqb_spec arg end_) as [E|E]; [reflexivity|].
  destruct (nth_error args arg) as [s|] eqn:N.
  - rewrite andb_false_r.     assert (arg < List.length args)%nat by (apply nth_error_Some; congruence).
    apply IH; lia.
  - apply nth_error_None in N. destruct (Nat.eqb_spec arg (List.length args)); [reflexivity|lia].
Qed.

Lemma skip_plain pre : plain pre -> forall done post fuel,
  (List.length pre < fuel)%nat ->
  exists k, (fuel = k + List.length pre)%nat /\
  cli_loop fuel (done ++ pre ++ post) (List.length done) (List.length (done ++ pre ++ post)) false =
  cli_loop k ((done ++ pre) ++ post) (List.length (done ++ pre)) (List.length ((done ++ pre) ++ post)) false.
Proof.
  induction pre as [|s pre IH]; intros Hp done post fuel Hf.
  - exists fuel. split; [cbn; lia|]. cbn. now rewrite app_nil_r.
  - inversion Hp as [|? ? Hs Hp']; subst. destruct fuel as [|fuel]; [cbn in Hf; lia|]. cbn in Hf.
    cbn [cli_loop].
    destruct (Nat.eqb_spec (List.length done) (List.length (done ++ (s :: pre) ++ post)%list)) as [E|E].
    { rewrite !app_length in E. cbn in E. lia. }
    rewrite nth_error_app2, Nat.sub_diag by lia. cbn [nth_error app].
    rewrite (dash_false s Hs). cbn [andb].
    destruct (IH Hp' (done ++ [s])%list post fuel ltac:(lia)) as (k & K & L).
    exists k. split; [cbn; lia|].
    replace ((done ++ [s]) ++ pre ++ post)%list with (done ++ s :: pre ++ post)%list in L
      by (rewrite <- app_assoc; reflexivity).
    replace ((done ++ [s]) ++ pre)%list with (done ++ s :: pre)%list in L
      by (rewrite <- app_assoc; reflexivity).
    replace (List.length (done ++ [s])%list) with (S (List.length done)) in L
      by (rewrite app_length; cbn; lia).
    exact L.
Qed.

Lemma rotate_mid {A} (pre post : list A) x :
  rotate1 (pre ++ x :: post) (List.length pre) (List.length (pre ++ x :: post)) = (pre ++ post ++ [x])%list.
Proof.
  unfold rotate1. rewrite firstn_app, Nat.sub_diag, firstn_all. cbn [firstn]. rewrite app_nil_r.
  f_equal.
  replace (S (List.length pre)) with (List.length (pre ++ [x])%list) by (rewrite app_length; cbn; lia).
  replace (pre ++ x :: post)%list with ((pre ++ [x]) ++ post)%list by (rewrite <- app_assoc; reflexivity).
  rewrite skipn_app, Nat.sub_diag, skipn_all. cbn [skipn app].
  rewrite firstn_all2 by (rewrite !app_length; cbn; lia). f_equal.
  rewrite (skipn_all2 (n := List.length ((pre ++ [x]) ++ post)%list)) by lia. rewrite app_nil_r.
  rewrite <- app_assoc, skipn_app, Nat.sub_diag, skipn_all. reflexivity.
Qed.

Lemma split_dash args : plain args \/
  exists pre o post, args = (pre ++ o :: post)%list /\ plain pre /\ dashed o.
Proof.
  induction args as [|s args IH]; [left; constructor|].
  destruct (dash s) eqn:D.
  - right. exists [], s, args. repeat split; [constructor|]. now apply dash_spec.
  - assert (N : ~ dashed s) by (intros H; apply dash_spec in H; congruence).
    destruct IH as [IH|(pre & o & post & -> & P & H)].
    + left. now constructor.
    + right. exists (s :: pre), o, post. repeat split; auto. now constructor.
Qed.

Lemma option_exit_spec o : dashed o ->
  (o = "--" /\ option_exit o = None) \/
  (In o informative /\ o <> "--" /\ option_exit o = Some 0%Z) \/
  (o <> "--" /\ ~ In o informative /\ option_exit o = Some 64%Z).
Proof.
  intros _. unfold option_exit, informative.
  repeat match goal with |- context [?a =? ?b] => destruct (String.eqb_spec a b) as [->|?] end;
    cbn [orb]; first [left; split; reflexivity
    | right; left; repeat split; [cbn; tauto|discriminate]
    | right; right; repeat split; auto; cbn; intros H; decompose [or] H; subst; congruence].
Qed.

Lemma parse_first prog pre o post : plain pre -> dashed o ->
  cli_parse (prog :: (pre ++ o :: post)%list) =
  match option_exit o with
  | Some code => Ok (Exit code)
  | None => match (pre ++ post)%list with [] => Ok (Exit 64%Z) | l => Ok (Files l) end
  end.
Proof.
  intros Hp Ho. unfold cli_parse.
  set (args := (pre ++ o :: post)%list).
  destruct (skip_plain pre Hp [] (o :: post) (S (S (List.length args)))) as (k & K & L).
  { unfold args. rewrite app_length. lia. }
  cbn [app List.length] in L. fold args in L. rewrite L. clear L.
  destruct k as [|k]; [unfold args in K; rewrite app_length in K; cbn in K; lia|].
  cbn [cli_loop].
  destruct (Nat.eqb_spec (List.length pre) (List.length args)) as [E|E].
  { unfold args in E. rewrite app_length in E. cbn in E. lia. }
  unfold args at 1. rewrite nth_error_app2, Nat.sub_diag by lia. cbn [nth_error].
  apply dash_spec in Ho. rewrite Ho. cbn [andb negb].
  destruct (option_exit o) as [code|]; [reflexivity|].
  unfold args. rewrite rotate_mid.
  rewrite rest.
  - cbn [bind]. rewrite app_length. cbn [List.length].
    replace (List.length pre + S (List.length post) - 1)%nat with (List.length (pre ++ post)%list) by (rewrite app_length; lia).
    rewrite app_assoc, firstn_app, firstn_all, Nat.sub_diag. cbn [firstn]. rewrite app_nil_r.
    destruct (pre ++ post)%list; reflexivity.
  - rewrite !app_length. cbn. lia.
  - rewrite !app_length. cbn. lia.
  - unfold args in K. rewrite app_length in K. cbn in K. rewrite !app_length. cbn. lia.
Qed.

Lemma parse_plain prog files : plain files ->
  cli_parse (prog :: files) = match files with [] => Ok (Exit 64%Z) | _ => Ok (Files files) end.
Proof.
  intros Hp. unfold cli_parse.
  destruct (skip_plain files Hp [] [] (S (S (List.length files)))) as (k & K & L); [lia|].
  cbn [app List.length] in L. rewrite app_nil_r in L. rewrite L. clear L.
  destruct k as [|k]; [lia|]. cbn [cli_loop]. rewrite Nat.eqb_refl. cbn [bind].
  destruct files as [|f files]; [reflexivity|]. rewrite firstn_all. reflexivity.
Qed.

Lemma cli_total prog args : exists r, cli_parse (prog :: args) = Ok r /\ meaning args r.
Proof.
  destruct (split_dash args) as [P|(pre & o & post & -> & P & D)].
  - rewrite parse_plain by exact P. destruct args; eexists; (split; [reflexivity|]).
    + constructor.
    + constructor; [exact P|discriminate].
  - rewrite parse_first by assumption.
    destruct (option_exit_spec o D) as [[-> ->]|[(I & N & ->)|(N & I & ->)]].
    + destruct (pre ++ post)%list eqn:E.
      * apply app_eq_nil in E. destruct E as [-> ->]. eexists. split; [reflexivity|]. constructor.
      * eexists. split; [reflexivity|]. rewrite <- E. constructor; [exact P|]. rewrite E. discriminate.
    + eexists. split; [reflexivity|]. now constructor.
    + eexists. split; [reflexivity|]. now constructor.
Qed.

Lemma informative_dashed o : In o informative -> dashed o /\ o <> "--".
Proof.
  cbn. intros H. decompose [or] H; subst; try contradiction; (split; [eexists; reflexivity|discriminate]).
Qed.

Lemma cli_meaning prog args r : meaning args r -> cli_parse (prog :: args) = Ok r.
Proof.
  assert (DD : dashed "--") by (exists "-"; reflexivity).
  intros H. destruct H as [files P N|pre post P N| | |pre o post P I|pre o post P D N I].
  - rewrite parse_plain by exact P. destruct files; [congruence|reflexivity].
  - rewrite parse_first by assumption. cbn [option_exit]. change (option_exit "--") with (@None Z).
    cbv iota. destruct (pre ++ post)%list; [congruence|reflexivity].
  - reflexivity.
  - reflexivity.
  - destruct (informative_dashed o I) as [D N]. rewrite parse_first by assumption.
    destruct (option_exit_spec o D) as [[-> _]|[(_ & _ & ->)|(_ & I' & _)]]; tauto.
  - rewrite parse_first by assumption.
    destruct (option_exit_spec o D) as [[-> _]|[(I' & _)|(_ & _ & ->)]]; tauto.
Qed.

Lemma cli_files prog args files : cli_parse (prog :: args) = Ok (Files files) ->
  files <> [] /\
  ((plain args /\ files = args) \/
   exists pre post, args = (pre ++ "--" :: post)%list /\ plain pre /\ files = (pre ++ post)%list).
Proof.
  intros H. destruct (cli_total prog args) as (r & E & M). rewrite H in E. injection E as <-.
  inversion M; subst; split; auto. right. eauto.
Qed.
