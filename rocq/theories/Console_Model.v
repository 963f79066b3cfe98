(** The progress display [MaRC::Progress::Console] (src/ProgressConsole.cpp). *)
From Coq Require Import List ZArith Bool.
From Flocq Require Import Core BinarySingleNaN.
From Verif Require Import Base Flt Num Extrema_Model MakeMap_Model.
Import ListNotations.
Open Scope Z_scope.

#[local] Existing Instance prec53.
#[local] Existing Instance emax53.

(** What is written to the standard output, src/ProgressConsole.cpp:48-53. *)
Inductive piece :=
| Dot                    (* '.' *)
| Number (p : Z)         (* the number p *)
| Hundred.               (* "100%\n" *)

(** src/ProgressConsole.cpp:31-35.  [static_cast<double>(plot_count) / map_size
    * 100] converted to std::size_t; the second operand of the division is
    converted to double.  Undefined for a map of size zero. *)
Definition percent_complete (map_size plot_count : Z) : outcome Z :=
  bind (int_of_double 0 (size_mod - 1)
          (Bmult mode_NE (Bdiv mode_NE (double_of_Z plot_count) (double_of_Z map_size)) (double_of_Z 100)))
    (fun p => if p <=? 100 then Ok p else UB ub_assert).

(** The loop of src/ProgressConsole.cpp:45-54.  [fuel] bounds the number of
    turns; the caller gives enough for every percentage up to 100. *)
Fixpoint print_steps (fuel : nat) (p percent : Z) : list piece :=
  match fuel with
  | O => []
  | S k =>
      if p <=? percent then
        (if p =? 100 then [Hundred]
         else if p mod 20 =? 0 then [Number p]
         else if p mod 2 =? 0 then [Dot] else [])
        ++ print_steps k (p + 2) percent
      else []
  end.

(** [Console::notify], src/ProgressConsole.cpp:25-58.  [old] is
    percent_complete_old_; the result is its new value and the output. *)
Definition console_notify (old map_size plot_count : Z) : outcome (Z * list piece) :=
  bind (percent_complete map_size plot_count) (fun percent =>
  if old <? percent then
    let p := old + 1 in
    let p := p + p mod 2 in
    Ok (percent, print_steps 51 p percent)
  else Ok (old, [])).

(** [Console::reset], src/ProgressConsole.cpp:60-64. *)
Definition console_reset : Z := 0.

(** [Console::Console], src/ProgressConsole.cpp:19-23. *)
Definition console_new : Z := 0.

(** The calls an observer receives, in order. *)
Fixpoint console_run (old : Z) (events : list event) : outcome (Z * list piece) :=
  match events with
  | [] => Ok (old, [])
  | Notify n c :: rest =>
      bind (console_notify old n c) (fun r =>
      bind (console_run (fst r) rest) (fun r' => Ok (fst r', snd r ++ snd r')))
  | Reset :: rest => console_run console_reset rest
  end.
