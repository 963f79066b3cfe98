(** A run of the whole program, for C126. *)
From Coq Require Import List ZArith Reals Bool String Lra Lia.
From Flocq Require Import Core BinarySingleNaN.
From Verif Require Import Base Flt Num Fits_Model Command_Model Expr_Model Text_Model Cli_Model Cli_Spec Input_Model Entry_Model Entry_Spec View_Model Parse_Model Parse_Spec Run_Model Run_Spec RunCase_Proofs
  BodyCase_Proofs Program_Model Program_Spec ProgramCase_Proofs RunWhole_Spec.
Import ListNotations.
Open Scope Z_scope.

(** The Earth lit from 10 degrees. *)
Definition lit_text : text := entry_text "MU0:
SUB_SOLAR_LAT: 0
SUB_SOLAR_LON: 10
".
Definition lit_host : host :=
  Host (fun _ => None) (fun name => if String.eqb name "a.inp" then contents lit_text else missing)
    read_tree false (fun _ => 0%Z) (fun _ _ => None) (fun _ => true).
Local Notation lit_run := (marc series_program lit_host 0 ["marc"; "a.inp"]%string old_files).

Lemma lit_elements : peek the_cells (snd lit_run "map.fits"%string) =
  Some [None; Some 4042; Some (-5773); Some (-4042); Some 5773; Some 4042; Some (-5773); Some (-4042); Some 5773; None].
Proof. vm_compute. reflexivity. Qed.
Lemma lit_ends : fst lit_run = returned 0.
Proof. vm_compute. reflexivity. Qed.

Definition summary (t : option input_text) : option (string * number * number * list mention * list plane_entry) :=
  match t with Some (map_text m []) => Some (me_file m, me_samples m, me_lines m, mentions m, me_more_planes m) | _ => None end.
Lemma lit_summary : summary (read_tree lit_text) = Some ("map.fits"%string, digit 4, digit 2, [by_projection None], []).
Proof. vm_compute. reflexivity. Qed.

Definition lit_entry : map_entry := match read_tree lit_text with Some (map_text m _) => m | _ => the_map T_longitude end.
Lemma lit_read : read_tree lit_text = Some (map_text lit_entry []).
Proof.
  unfold lit_entry. pose proof lit_summary as H. destruct (read_tree lit_text) as [[u|m [|a l]]|]; cbn [summary] in H; try discriminate. reflexivity.
Qed.
Lemma summary_says m f sa li me mo : summary (Some (map_text m [])) = Some (f, sa, li, me, mo) ->
  me_file m = f /\ me_samples m = sa /\ me_lines m = li /\ mentions m = me /\ me_more_planes m = mo.
Proof. intros H. cbn [summary] in H. injection H as H1 H2 H3 H4 H5. repeat split; assumption. Qed.
Lemma lit_sizes : me_file lit_entry = "map.fits"%string /\ me_samples lit_entry = digit 4 /\ me_lines lit_entry = digit 2 /\
  mentions lit_entry = [by_projection None] /\ me_more_planes lit_entry = [].
Proof. apply summary_says. rewrite <- lit_read. exact lit_summary. Qed.
Lemma digit_written z : 0 <= z <= 9 -> size_written (digit z) z.
Proof.
  intros H. unfold size_written, digit, denoted. cbn [n_digits n_fraction n_exponent n_sign signed].
  split; [|split; [reflexivity|split; [reflexivity|]]].
  - repeat constructor; lia.
  - cbn. rewrite Rplus_0_r, Rmult_1_r. f_equal. lia.
Qed.

Lemma successful_from e fs' : read_tree lit_text = Some (map_text e []) ->
  marc series_program lit_host 0 ["marc"; "a.inp"]%string old_files = (returned 0, fs') ->
  me_samples e = digit 4 -> me_lines e = digit 2 -> mentions e = [by_projection None] -> me_more_planes e = [] ->
  successful digits_value (fun _ x => x) (fun x _ => x) series_program lit_host 0 ["a.inp"]%string old_files fs' None [(e, [])] e 4 2.
Proof.
  intros R M Sa Li Me Mo. constructor.
  - exact (host_parses missing).
  - exists "marc"%string. exact M.
  - exists ["a.inp"%string]. split.
    + apply all_plain; [|discriminate]. repeat constructor. intros [r D]. discriminate D.
    + constructor; [|constructor]. exists lit_text. split; [reflexivity|]. apply (host_parses missing). exact R.
  - left. split; reflexivity.
  - unfold unmixed, maps_of. cbn [flat_map fst snd app]. rewrite Me. cbn. repeat split.
  - exists 0%nat. split; [reflexivity|]. intros [|[|i]] x y L; [lia|discriminate|discriminate].
  - rewrite Sa. apply digit_written. lia.
  - rewrite Li. apply digit_written. lia.
  - rewrite Mo. cbn. lia.
Qed.
Lemma lit_successful : exists e fs', successful digits_value (fun _ x => x) (fun x _ => x) series_program lit_host 0 ["a.inp"]%string old_files fs' None [(e, [])] e 4 2 /\
  peek the_cells (fs' "map.fits"%string) = Some [None; Some 4042; Some (-5773); Some (-4042); Some 5773; Some 4042; Some (-5773); Some (-4042); Some 5773; None].
Proof.
  exists lit_entry, (snd lit_run). split; [|exact lit_elements]. destruct lit_sizes as (F & Sa & Li & Me & Mo).
  apply successful_from; [exact lit_read| |exact Sa|exact Li|exact Me|exact Mo].
  exact (eq_trans (surjective_pairing lit_run) (f_equal (fun z => (z, snd lit_run)) lit_ends)).
Qed.
