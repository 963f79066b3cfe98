(** Proofs for C112 and C113. *)
From Coq Require Import List ZArith Reals Bool String Lia.
From Flocq Require Import Core BinarySingleNaN.
From Verif Require Import Base Flt Num Maths_Model Extrema_Model Extrema_Spec MakeMap_Model MakeMap_Spec Proj_Model Virtual_Model Virtual_Spec
  Params_Model Fits_Model Command_Model Expr_Model Text_Model
  Cli_Model Cli_Spec Cli_Proofs Input_Model Entry_Model Entry_Spec Entry_Proofs View_Model Parse_Model Parse_Spec Parse_Proofs Run_Model Run_Spec RunPlane_Proofs RunMercator_Proofs
  RunHeader_Spec RunHeader_Proofs   Program_Model Program_Spec.
Import ListNotations.
Open Scope Z_scope.
Open Scope list_scope.

Section Program.
Variables (strtod : text -> option double) (call : string -> double -> double) (pow : double -> double -> double).
Variables (X : outside) (h : host).
Hypothesis P : parses strtod call pow h.
Local Notation file_reads := (file_reads strtod call pow h).
Local Notation configured := (configured strtod call pow h).

(** ** Input files *)
Lemma each_app {A} (f : A -> act unit) l l' g : each f (l ++ l') g =
  match each f l g with Ok (Some (_, g)) => each f l' g | o => o end.
Proof.
  revert g. induction l as [|a l IH]; intro g; cbn; [reflexivity|]. unfold andthen.
  destruct (f a g) as [[[[] g1]|]| |]; try reflexivity. apply IH.
Qed.
Lemma file_parsed name g g' : parse_file X h name g = Ok (was_parsed g') ->
  exists t, file_reads name t /\ actions X t g = Ok (Some (tt, g')).
Proof.
  unfold parse_file. destruct (fopen h name) as [| |s] eqn:F; try discriminate.
  destruct (tree h s) as [t|] eqn:T; [|discriminate].
  destruct (actions X t g) as [[[[] g1]|]| |] eqn:A; try discriminate. intro E. injection E as ->.
  exists t. split; [|exact A]. exists s. split; [exact F|]. now apply P.
Qed.
Lemma inputs_parsed l : forall g g', parse_inputs X h l g = Ok (Some g') ->
  exists ts, Forall2 file_reads l ts /\ each (actions X) ts g = Ok (Some (tt, g')).
Proof.
  induction l as [|name l IH]; intros g g' H; cbn in H.
  - injection H as ->. exists []. split; [constructor|reflexivity].
  - destruct (parse_file X h name g) as [[e| |g1]| |] eqn:F; try discriminate. cbn in H.
    destruct (file_parsed _ _ _ F) as (t & R & A). destruct (IH _ _ H) as (ts & Rs & As).
    exists (t :: ts). split; [now constructor|]. cbn. unfold andthen. now rewrite A.
Qed.
Lemma reads_once name t t' : file_reads name t -> file_reads name t' -> t = t'.
Proof. intros (s & F & R) (s' & F' & R'). rewrite F in F'. injection F' as <-. apply P in R, R'. congruence. Qed.
Lemma all_once l : forall ts ts', Forall2 file_reads l ts -> Forall2 file_reads l ts' -> ts = ts'.
Proof.
  induction l as [|a l IH]; intros ts ts' H H'; inversion H; inversion H'; subst; [reflexivity|].
  f_equal; [eapply reads_once; eassumption|now apply IH].
Qed.

(** ** Maps *)
Lemma put_same fs name f : put fs name f name = f.
Proof. unfold put. now rewrite String.eqb_refl. Qed.
Lemma put_other fs name f n : n <> name -> put fs name f n = fs n.
Proof. unfold put. intro N. destruct (String.eqb_spec n name); [contradiction|reflexivity]. Qed.

Lemma maps_untouched fuel l : forall result fs calls e fs' name,
  make_maps X h fuel l result fs calls = (e, fs') -> (forall m, In m l -> mc_file m <> name) -> fs' name = fs name.
Proof.
  induction l as [|m l IH]; intros result fs calls e fs' name H N; cbn [make_maps] in H; [injection H as _ <-; reflexivity|].
  destruct (command_of X fuel m) as [c|]; [|injection H as _ <-; reflexivity].
  destruct (execute _ _ _ c _) as [w [r|x|u]].
  - rewrite (IH _ _ _ _ _ _ H (fun m' I => N m' (or_intror I))). apply put_other. exact (not_eq_sym (N m (or_introl eq_refl))).
  - injection H as _ <-. apply put_other. exact (not_eq_sym (N m (or_introl eq_refl))).
  - injection H as _ <-. apply put_other. exact (not_eq_sym (N m (or_introl eq_refl))).
Qed.

Lemma maps_result fuel l : forall result fs calls z fs',
  make_maps X h fuel l result fs calls = (returned z, fs') ->
  z = -1 \/ (z = result \/ z = 1) /\
  (forall n m, nth_error l n = Some m -> exists c w w' r, command_of X fuel m = Some c /\
     execute (cfitsio h) (leaves h) (removes h (mc_file m)) c w = (w', Ok r) /\ (z = 0 -> r = 0 /\ result = 0) /\
     (last_named mc_file l n -> fs' (mc_file m) = w_file w')) /\
  (z <> result -> exists n m c w w' r, nth_error l n = Some m /\ command_of X fuel m = Some c /\
     execute (cfitsio h) (leaves h) (removes h (mc_file m)) c w = (w', Ok r) /\ r <> 0).
Proof.
  induction l as [|m l IH]; intros result fs calls z fs' H; cbn [make_maps] in H.
  - injection H as -> ->. right. split; [now left|]. split; [intros [|n] m E; discriminate E|congruence].
  - destruct (command_of X fuel m) as [c|] eqn:C; [|discriminate].
    destruct (execute _ _ _ c _) as [w [r|x|u]] eqn:E; [|injection H as <- _; now left|discriminate].
    destruct (IH _ _ _ _ _ H) as [->|(Z & A & B)]; [now left|]. right.
    split; [destruct (r =? 0); destruct Z; auto|]. split.
    + intros [|n] m' N; cbn in N.
      * injection N as <-. exists c. eexists. exists w, r. split; [exact C|]. split; [exact E|]. split.
        { intro Z0. destruct (Z.eqb_spec r 0) as [R|R].
          - split; [exact R|]. subst z. destruct l as [|m1 l1].
            + cbn [make_maps] in H. congruence.
            + destruct (A O m1 eq_refl) as (? & ? & ? & ? & _ & _ & Q & _). now apply Q.
          - exfalso. subst z. destruct Z; discriminate. }
        { intro Last. rewrite (maps_untouched fuel l _ _ _ _ _ (mc_file m) H); [apply put_same|].
          intros m1 I. apply In_nth_error in I. destruct I as [i I]. exact (Last (S i) m m1 ltac:(lia) eq_refl I). }
      * destruct (A n m' N) as (c' & w1 & w2 & r' & C' & E' & Z' & L'). exists c', w1, w2, r'. split; [exact C'|]. split; [exact E'|]. split.
        { intro Z0. destruct (Z' Z0) as [R R']. split; [exact R|]. destruct (r =? 0); [exact R'|discriminate]. }
        { intro Last. apply L'. intros i x y Li Nx Ny. exact (Last (S i) x y ltac:(lia) Nx Ny). }
    + intro Ne. destruct (Z.eqb_spec r 0) as [R|R].
      * destruct (B Ne) as (n & m' & c' & w1 & w2 & r' & Q). exists (S n), m', c', w1, w2, r'. exact Q.
      * exists O, m, c. eexists. exists w, r. repeat split; eassumption.
Qed.

(** The maps are made one after the other: what each finds and what it leaves. *)
Lemma maps_in_turn fuel l : forall result fs calls z fs', result = 0 \/ result = 1 ->
  make_maps X h fuel l result fs calls = (returned z, fs') -> z <> -1 ->
  exists (at_ : nat -> files * nat) (code : nat -> Z), at_ O = (fs, calls) /\ fs' = fst (at_ (List.length l)) /\
    (forall n m, nth_error l n = Some m -> one_map X h fuel m (at_ n) (at_ (S n)) (code n)) /\
    (z = 0 \/ z = 1) /\ (z = 0 <-> result = 0 /\ forall n, (n < List.length l)%nat -> code n = 0).
Proof.
  induction l as [|m l IH]; intros result fs calls z fs' R H Z; cbn [make_maps] in H.
  - injection H as <- <-. exists (fun _ => (fs, calls)), (fun _ => 0). repeat split; auto; [intros [|n] m N; discriminate N|tauto].
  - destruct (command_of X fuel m) as [c|] eqn:C; [|discriminate].
    destruct (execute _ _ _ c _) as [w [r|x|u]] eqn:E; [|injection H as <- _; congruence|discriminate].
    destruct (IH (if r =? 0 then result else 1) _ _ _ _ ltac:(destruct (r =? 0); tauto) H Z) as (a & k & A0 & Fa & Am & Z1 & Z2).
    exists (fun n => match n with O => (fs, calls) | S n => a n end), (fun n => match n with O => r | S n => k n end).
    split; [reflexivity|]. split; [exact Fa|]. split; [|split; [exact Z1|]].
    + intros [|n] m' N; cbn in N; [|exact (Am n m' N)]. injection N as <-. exists c, w. split; [exact C|]. split; [exact E|].
      rewrite A0. cbn [fst snd]. split; [reflexivity|]. split; [apply put_same|]. intros name Ne. now apply put_other.
    + rewrite Z2. destruct (Z.eqb_spec r 0) as [R0|R0].
      * split; intros [Q1 Q2]; (split; [exact Q1|]); intros n Ln; [destruct n; [exact R0|]; apply Q2; cbn in Ln; lia|apply (Q2 (S n)); cbn; lia].
      * split; [intros [Q _]; discriminate Q|intros [_ Q]; destruct (R0 (Q O ltac:(cbn; lia)))].
Qed.

(** ** The program *)
Lemma commands_each ts g : each (actions X) ts globals_new = Ok (Some (tt, g)) -> commands_of X ts = Ok (Some (g_commands g)).
Proof.
  intro E. transitivity (match each (actions X) ts globals_new with
    Ok (Some (_, g)) => Ok (Some (g_commands g)) | Ok None => Ok None | Throw e => Throw e | UB u => UB u end); [reflexivity|].
  now rewrite E.
Qed.

(** What every run that gets to the maps goes through. *)
Lemma stages fuel prog args fs e fs' : marc X h fuel (prog :: args) fs = (e, fs') ->
  (fs' = fs /\ (e = returned (-1) \/ e = untold \/ (exists u, e = undefined u) \/
     exists code, e = exited code /\ meaning args (Exit code))) \/
  exists files config ts cmds, meaning args (Files files) /\ configured config /\ Forall2 file_reads files ts /\
    commands_of X (config ++ ts) = Ok (Some cmds) /\ make_maps X h fuel cmds 0 fs 0 = (e, fs').
Proof.
  unfold marc. destruct (cli_total prog args) as (r & Cl & M). rewrite Cl.
  assert (Go : forall g config, configured config -> each (actions X) config globals_new = Ok (Some (tt, g)) ->
    match r with
    | Exit code => (exited code, fs)
    | Files l => match parse_inputs X h l g with
        | Ok (Some g) => make_maps X h fuel (g_commands g) 0 fs 0
        | Ok None => (returned (-1), fs)
        | Throw _ => (returned (-1), fs)
        | UB u => (undefined u, fs)
        end
    end = (e, fs') ->
    (fs' = fs /\ (e = returned (-1) \/ e = untold \/ (exists u, e = undefined u) \/
       exists code, e = exited code /\ meaning args (Exit code))) \/
    exists files config ts cmds, meaning args (Files files) /\ configured config /\ Forall2 file_reads files ts /\
      commands_of X (config ++ ts) = Ok (Some cmds) /\ make_maps X h fuel cmds 0 fs 0 = (e, fs')).
  { intros g config Cf Ef H. destruct r as [code|l].
    - injection H as <- <-. left. split; [reflexivity|]. right. right. right. now exists code.
    - destruct (parse_inputs X h l g) as [[g1|]|x|u] eqn:I.
      + right. destruct (inputs_parsed _ _ _ I) as (ts & R & E). exists l, config, ts, (g_commands g1).
        split; [exact M|]. split; [exact Cf|]. split; [exact R|]. split; [|exact H].
        apply commands_each. rewrite each_app, Ef. exact E.
      + injection H as <- <-. left. auto.
      + injection H as <- <-. left. auto.
      + injection H as <- <-. left. split; [reflexivity|]. right. right. left. now exists u. }
  destruct (parse_file X h (config_filename h) globals_new) as [[[]| |g]|x|u] eqn:F; intro H.
  - apply (Go globals_new []); [|reflexivity|exact H]. left. split; [|reflexivity].
    unfold parse_file in F. destruct (fopen h _) as [| |s]; [reflexivity|discriminate|].
    destruct (tree h s); [|discriminate]. destruct (actions X i globals_new) as [[[[] ?]|]| |]; discriminate.
  - injection H as <- <-. left. auto.
  - destruct (enoent_left h); injection H as <- <-; left; auto.
  - destruct (file_parsed _ _ _ F) as (t & R & A). apply (Go g [t]); [|cbn; unfold andthen; now rewrite A|exact H].
    right. now exists t.
  - injection H as <- <-. left. auto.
  - injection H as <- <-. left. split; [reflexivity|]. right. right. left. now exists u.
Qed.

Theorem run_in_turn fuel prog args fs fs' z : marc X h fuel (prog :: args) fs = (returned z, fs') -> z <> -1 ->
  exists files config ts cmds (at_ : nat -> Program_Model.files * nat) (code : nat -> Z),
    meaning args (Files files) /\ configured config /\ Forall2 file_reads files ts /\
    commands_of X (config ++ ts) = Ok (Some cmds) /\ at_ O = (fs, O) /\ fs' = fst (at_ (List.length cmds)) /\
    (forall n m, nth_error cmds n = Some m -> one_map X h fuel m (at_ n) (at_ (S n)) (code n)) /\
    (z = 0 \/ z = 1) /\ (z = 0 <-> forall n, (n < List.length cmds)%nat -> code n = 0).
Proof.
  intros H Z. destruct (stages _ _ _ _ _ _ H) as [[_ [E|[E|[[u E]|(c & E & _)]]]]|(files & config & ts & cmds & M & C & R & K & E)]; try discriminate E; [congruence|].
  destruct (maps_in_turn _ _ 0 _ _ _ _ ltac:(now left) E Z) as (a & k & A0 & Fa & Am & Z1 & Z2).
  exists files, config, ts, cmds, a, k. repeat (split; [assumption|]). rewrite Z2. tauto.
Qed.

Theorem run_success fuel prog args fs fs' : marc X h fuel (prog :: args) fs = (returned 0, fs') ->
  exists files config ts cmds, meaning args (Files files) /\ configured config /\ Forall2 file_reads files ts /\
    commands_of X (config ++ ts) = Ok (Some cmds) /\
    (forall n m, nth_error cmds n = Some m -> exists c w w', command_of X fuel m = Some c /\
       execute (cfitsio h) (leaves h) (removes h (mc_file m)) c w = (w', Ok 0) /\
       (last_named mc_file cmds n -> fs' (mc_file m) = w_file w')) /\
    (forall name, (forall m, In m cmds -> mc_file m <> name) -> fs' name = fs name).
Proof.
  intro H. destruct (stages _ _ _ _ _ _ H) as [[_ [E|[E|[[u E]|(c & E & _)]]]]|(files & config & ts & cmds & M & C & R & K & E)]; try discriminate E.
  exists files, config, ts, cmds. split; [exact M|]. split; [exact C|]. split; [exact R|]. split; [exact K|].
  destruct (maps_result _ _ _ _ _ _ _ E) as [Z|(_ & A & _)]; [discriminate|]. split.
  - intros n m N. destruct (A n m N) as (c & w & w' & r & Q1 & Q2 & Q3 & Q4). destruct (Q3 eq_refl) as [-> _]. exists c, w, w'. auto.
  - intros name N. exact (maps_untouched _ _ _ _ _ _ _ _ E N).
Qed.

Theorem run_problem fuel prog args fs fs' z : marc X h fuel (prog :: args) fs = (returned z, fs') -> z <> 0 -> z <> -1 ->
  z = 1 /\ exists files config ts cmds n m c w w' r, meaning args (Files files) /\ configured config /\ Forall2 file_reads files ts /\
    commands_of X (config ++ ts) = Ok (Some cmds) /\ nth_error cmds n = Some m /\ command_of X fuel m = Some c /\
    execute (cfitsio h) (leaves h) (removes h (mc_file m)) c w = (w', Ok r) /\ r <> 0.
Proof.
  intros H Z0 Z1. destruct (stages _ _ _ _ _ _ H) as [[_ [E|[E|[[u E]|(c & E & _)]]]]|(files & config & ts & cmds & M & C & R & K & E)];
    try discriminate E; [injection E as E; contradiction|].
  destruct (maps_result _ _ _ _ _ _ _ E) as [Z|(Z & _ & B)]; [contradiction|]. split; [destruct Z; [contradiction|assumption]|].
  destruct (B Z0) as (n & m & c & w & w' & r & Q). exists files, config, ts, cmds, n, m, c, w, w', r.
  split; [exact M|]. split; [exact C|]. split; [exact R|]. split; [exact K|exact Q].
Qed.

Theorem run_faulty fuel prog args fs files f : meaning args (Files files) -> In f files -> (forall t, ~ file_reads f t) ->
  exists e, marc X h fuel (prog :: args) fs = (e, fs) /\ (e = returned (-1) \/ e = untold \/ exists u, e = undefined u).
Proof.
  intros M I N. destruct (marc X h fuel (prog :: args) fs) as [e fs'] eqn:H. exists e.
  destruct (stages _ _ _ _ _ _ H) as [[-> [E|[E|[E|(c & -> & M')]]]]|(files' & config & ts & cmds & M' & C & R & K & E)]; auto.
  - apply cli_meaning with (prog := prog) in M, M'. rewrite M in M'. discriminate.
  - exfalso. apply cli_meaning with (prog := prog) in M, M'. rewrite M in M'. injection M' as <-.
    revert I. clear - R N. induction R as [|a t l ts Q _ IH]; [intros []|]. intros [->|I]; [exact (N _ Q)|exact (IH I)].
Qed.

Theorem run_options fuel prog args fs code : meaning args (Exit code) -> fopen h (config_filename h) = missing ->
  marc X h fuel (prog :: args) fs = (exited code, fs).
Proof. intros M F. unfold marc, parse_file. rewrite F. apply cli_meaning with (prog := prog) in M. now rewrite M. Qed.

(** ** From the entries of the input files *)
Definition settings (u : option user_entry) : list input_text := match u with Some u => [user_text u] | None => [] end.
Lemma entry_file u ts cmds n : unmixed ts -> commands_of X (texts u ts) = Ok (Some cmds) ->
  (forall e, nth_error (maps_of ts) n = Some e -> exists m, nth_error cmds n = Some m /\ mc_file m = me_file e) /\
  (forall m, nth_error cmds n = Some m -> exists e, nth_error (maps_of ts) n = Some e /\ mc_file m = me_file e).
Proof.
  intros U H. unfold commands_of in H. apply run_means in H; [|exact U]. destruct H as (d & Hd & H).
  assert (F : forall e m, map_body (x_fmod X) (l_degree (x_libm X)) (x_centric X) (x_au X) (constructs X) (opens X) (refuses X) d e = Some m -> mc_file m = me_file e).
  { intros e1 m Mm. unfold map_body in Mm.
    repeat match type of Mm with obind ?y _ = _ => destruct y; cbn [obind] in Mm; [|discriminate] end. now injection Mm as <-. }
  split.
  - intros e N. destruct (Forall2_nth_r _ _ _ H n e N) as (m & Nm & Mm & _). exists m. split; [exact Nm|exact (F _ _ Mm)].
  - intros m Nm. clear - H Nm F. revert n m Nm. induction H as [|e1 c l l' [Mm _] _ IH]; intros [|n] m Nm; try discriminate Nm.
    + injection Nm as <-. exists e1. split; [reflexivity|exact (F _ _ Mm)].
    + exact (IH _ _ Nm).
Qed.

Theorem run_entries fuel prog args fs fs' files u ts : marc X h fuel (prog :: args) fs = (returned 0, fs') ->
  meaning args (Files files) -> configured (settings u) -> Forall2 file_reads files (texts_of ts) -> unmixed ts ->
  exists cmds, commands_of X (texts u ts) = Ok (Some cmds) /\
  (forall n e, nth_error (maps_of ts) n = Some e -> last_named me_file (maps_of ts) n ->
   exists m c w w', nth_error cmds n = Some m /\ mc_file m = me_file e /\ command_of X fuel m = Some c /\
     execute (cfitsio h) (leaves h) (removes h (me_file e)) c w = (w', Ok 0) /\ fs' (me_file e) = w_file w') /\
  (forall name, (forall e, In e (maps_of ts) -> me_file e <> name) -> fs' name = fs name).
Proof.
  intros H M C R U. destruct (run_success _ _ _ _ _ H) as (files' & config & ts' & cmds & M' & C' & R' & K & A & B).
  apply cli_meaning with (prog := prog) in M, M'. rewrite M in M'. injection M' as <-.
  rewrite (all_once _ _ _ R' R) in K.
  assert (config = settings u) as ->.
  { destruct C as [[F E]|(t & Q & E)], C' as [[F' E']|(t' & Q' & E')]; subst; try congruence.
    - destruct Q' as (s & Q' & _). congruence.
    - destruct Q as (s & Q & _). congruence.
    - rewrite E. f_equal. eapply reads_once; eassumption. }
  exists cmds. split; [exact K|]. split.
  - intros n e N L. destruct (entry_file u ts cmds n U K) as [E1 _]. destruct (E1 e N) as (m & Nm & Fm).
    destruct (A n m Nm) as (c & w & w' & Cm & Ex & La). exists m, c, w, w'. rewrite Fm in La, Ex.
    split; [exact Nm|]. split; [exact Fm|]. split; [exact Cm|]. split; [exact Ex|]. apply La.
    intros i x y Li Nx Ny. destruct (entry_file u ts cmds i U K) as [_ E2]. destruct (E2 y Ny) as (e' & N' & ->).
    rewrite Nm in Nx. injection Nx as <-. rewrite Fm. exact (L i e e' Li N N').
  - intros name N. apply B. intros m I. apply In_nth_error in I. destruct I as [i I].
    destruct (entry_file u ts cmds i U K) as [_ E2].
    destruct (E2 m I) as (e & Ne & ->). apply N. eapply nth_error_In. exact Ne.
Qed.
End Program.

(** ** Configuration files *)
Theorem config_file h dir : (getenv h "XDG_CONFIG_HOME" = None \/ exists d, usable (getenv h "XDG_CONFIG_HOME") d) ->
  config_home (getenv h) dir -> config_filename h = (dir ++ "/marc")%string.
Proof.
  intros H D. unfold config_filename. destruct D as [dir [E A]|dir N E].
  - now rewrite E.
  - destruct H as [H|[d H]]; [|contradiction (N d H)]. rewrite H, E. clear. induction dir as [|c s IH]; cbn; [reflexivity|]. now rewrite <- IH.
Qed.
Theorem no_config_file h : getenv h "XDG_CONFIG_HOME" = None -> getenv h "HOME" = None -> config_filename h = EmptyString.
Proof. intros H E. unfold config_filename. now rewrite H, E. Qed.

(** ** A simple cylindrical map, from characters to elements *)
Lemma size_read n v x : size_written n v -> kept (positive_size n) = Some x -> x = v.
Proof.
  intros (D & F & E & V) K. destruct (positive_size n) as [y| |] eqn:Y; try discriminate. injection K as <-.
  destruct (Entry_Proofs.sizes n D F E) as (S1 & _). destruct (S1 y Y) as [Q _]. apply eq_IZR. congruence.
Qed.
Lemma rotation_kept pro e b : body_spheroid (A := ar_double) pro e = Ok b -> Spheroid_Model.prograde b = pro.
Proof.
  unfold body_spheroid. destruct (body_radii e) as [r| |]; cbn [bind]; try discriminate. unfold Spheroid_Model.spheroid_new.
  destruct (Spheroid_Model.validate_radius _) as [x| |]; cbn [bind]; try discriminate.
  destruct (Spheroid_Model.validate_radius _) as [y| |]; cbn [bind]; try discriminate.
  destruct (a_lt _ _ _); [discriminate|]. intro E. now injection E as <-.
Qed.

Open Scope R_scope.
Theorem run_default_map strtod call pow X h fuel prog args fs fs' files ts n e samples lines :
  parses strtod call pow h -> ieee X -> accurate (x_scale X) -> (forall n, cfitsio h n = 0%Z) ->
  marc X h fuel (prog :: args) fs = (returned 0, fs') ->
  meaning args (Files files) -> fopen h (config_filename h) = missing ->
  Forall2 (file_reads strtod call pow h) files (texts_of ts) -> unmixed ts ->
  nth_error (maps_of ts) n = Some e -> last_named me_file (maps_of ts) n -> me_projection e = T_simple_c None ->
  size_written (me_samples e) samples -> size_written (me_lines e) lines ->
  let planes := Z.of_nat (S (List.length (me_more_planes e))) in
  (2 <= samples * lines)%Z -> (samples * lines * planes < 2 ^ 63 - 1)%Z -> (lines < 2 ^ 37)%Z -> (samples < 2 ^ 52)%Z ->
  forall j p, nth_error (me_plane e :: me_more_planes e) j = Some p -> pe_range p = no_range ->
  (pe_type p = T_latitude None \/ pe_type p = T_latitude (Some Centric) ->
   exists t axes cards d rest, fs' (me_file e) = new_file (Hdu t axes cards d :: rest) /\
   forall k i, (0 <= k < lines)%Z -> (0 <= i < samples)%Z ->
   exists v y, d (1 + Z.of_nat j * (samples * lines) + k * samples + i)%Z = Some (existT _ t v) /\
     stands_for t cards planes (Z.of_nat j + 1) v y /\
     Rabs (y - (-90 + 180 * fraction k lines)) <= tolerance t latitude_plane + 1e-12) /\
  (pe_type p = T_longitude ->
   exists t axes cards d rest, fs' (me_file e) = new_file (Hdu t axes cards d :: rest) /\
   forall k i, (0 <= k < lines)%Z -> (0 <= i < samples)%Z ->
   exists v y z, d (1 + Z.of_nat j * (samples * lines) + k * samples + i)%Z = Some (existT _ t v) /\
     stands_for t cards planes (Z.of_nat j + 1) v y /\
     Rabs (y - ((if me_prograde e then 360 - 360 * fraction i samples else 360 * fraction i samples) + 360 * IZR z))
       <= tolerance t longitude_plane + 1e-11).
Proof.
  intros P I A S0 H M F R U N L Pr Sa Li planes B1 B2 B3 B4 j p J Rg.
  destruct (run_entries strtod call pow X h P fuel prog args fs fs' files None ts H M (or_introl (conj F eq_refl)) R U) as (cmds & K & Q & _).
  destruct (Q n e N L) as (m & c & w & w' & Nm & Fm & Cm & Ex & Fs).
  destruct (default_map X fuel (cfitsio h) (leaves h) (removes h (me_file e)) ts cmds n e I S0 A U K N Pr) as (m' & b & Nm' & Hb & D).
  destruct (header_entry X None ts cmds n e U K N) as (m2 & d2 & b2 & Nm2 & _ & _ & _ & Pl & Es & El & _).
  assert (m' = m) as -> by congruence. assert (m2 = m) as -> by congruence.
  apply (size_read _ _ _ Sa) in Es. apply (size_read _ _ _ Li) in El. rewrite (rotation_kept _ _ _ Hb) in D.
  assert (Len : List.length (mc_images m) = S (List.length (me_more_planes e))).
  { change (S (List.length (me_more_planes e))) with (List.length (planes_of e)). symmetry. clear - Pl. induction Pl; cbn; congruence. }
  specialize (D c w w' 0%Z). unfold fits_size, element in D. rewrite Es, El, Len, <- Fs in D.
  assert (0 < samples /\ 0 < lines)%Z as [G1 G2].
  { destruct (header_entry X None ts cmds n e U K N) as (m3 & d3 & b3 & Nm3 & _ & _ & _ & _ & E3 & L3 & _).
    assert (m3 = m) as -> by congruence.
    assert (Z : forall n v, kept (positive_size n) = Some v -> (0 < v)%Z).
    { intros n0 v0 Kp. unfold positive_size, pbind in Kp. destruct (integer n0) as [z0| |]; try discriminate.
      destruct (Z.ltb_spec 0 z0); [|discriminate]. now injection Kp as <-. }
    rewrite Es in E3. rewrite El in L3. split; eapply Z; eassumption. }
  exact (D (conj G1 (conj G2 (conj B1 B2))) B3 B4 Cm Ex j p J Rg).
Qed.
