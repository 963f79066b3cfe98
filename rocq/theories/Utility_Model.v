(** lib/marc/utility.h: image inversion.

    An image is the list of its pixels, line by line.  [samples] and [lines]
    are [std::size_t] values. *)
From Coq Require Import List ZArith Bool.
From Verif Require Import Base.
Import ListNotations.
Open Scope Z_scope.

Section Inversion.
Context {A : Type}.

(** [std::reverse(first, first + len)] on the elements of [img] starting at
    [first]; touching an element outside the image is undefined.
    (Called in lib/marc/utility.h:51-52.) *)
Definition reverse_range (img : list A) (first len : Z) : outcome (list A) :=
  if (0 <=? first) && (first + len <=? Z.of_nat (length img)) then
    let f := Z.to_nat first in
    let n := Z.to_nat len in
    Ok (firstn f img ++ rev (firstn n (skipn f img)) ++ skipn (f + n) img)
  else UB ub_access.

(** Loop of lib/marc/utility.h:50-54: [n] lines are still to be reversed,
    [begin] is the iterator position. *)
Fixpoint invert_samples_loop (n : nat) (img : list A) (begin samples : Z)
  : outcome (list A) :=
  match n with
  | O => Ok img
  | S m =>
      bind (reverse_range img begin samples)
           (fun img' => invert_samples_loop m img' (begin + samples) samples)
  end.

(** lib/marc/utility.h:39-55 [invert_samples].  The product in the size check
    is a [std::size_t] product and therefore wraps. *)
Definition invert_samples (img : list A) (samples lines : Z) : outcome (list A) :=
  if negb (Z.of_nat (length img) =? wrap (samples * lines))
  then Throw invalid_argument
  else invert_samples_loop (Z.to_nat lines) img 0 samples.

(** Swap of two elements, the step of [std::swap_ranges]. *)
Definition swap_elements (img : list A) (p q : Z) : outcome (list A) :=
  if (0 <=? p) && (0 <=? q) then
    match nth_error img (Z.to_nat p), nth_error img (Z.to_nat q) with
    | Some a, Some b => Ok (upd (upd img (Z.to_nat p) b) (Z.to_nat q) a)
    | _, _ => UB ub_access
    end
  else UB ub_access.

(** [std::swap_ranges(first1, first1 + n, first2)], lib/marc/utility.h:94. *)
Fixpoint swap_ranges (n : nat) (img : list A) (first1 first2 : Z)
  : outcome (list A) :=
  match n with
  | O => Ok img
  | S m =>
      bind (swap_elements img first1 first2)
           (fun img' => swap_ranges m img' (first1 + 1) (first2 + 1))
  end.

(** Loop of lib/marc/utility.h:84-95; [n] iterations are left and [line] is
    the loop variable.  The offsets are [std::size_t] expressions. *)
Fixpoint invert_lines_loop (n : nat) (img : list A) (line samples lines : Z)
  : outcome (list A) :=
  match n with
  | O => Ok img
  | S m =>
      let top_begin := wrap (line * samples) in
      let offset := wrap (wrap (lines - line - 1) * samples) in
      bind (swap_ranges (Z.to_nat samples) img top_begin offset)
           (fun img' => invert_lines_loop m img' (line + 1) samples lines)
  end.

(** lib/marc/utility.h:72-96 [invert_lines]. *)
Definition invert_lines (img : list A) (samples lines : Z) : outcome (list A) :=
  if negb (Z.of_nat (length img) =? wrap (samples * lines))
  then Throw invalid_argument
  else
    let middle := lines / 2 in
    invert_lines_loop (Z.to_nat middle) img 0 samples lines.

End Inversion.
