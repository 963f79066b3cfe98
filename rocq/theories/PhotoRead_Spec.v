(** Specification: what a photo has at a point, with all its options. *)
From Coq Require Import List ZArith Bool.
From Verif Require Import Base Num Photo_Model Photo_Spec Input_Model Input_Spec.
Import ListNotations.
Open Scope Z_scope.

Section Spec.
Context {A : arith} {P : Type} (nan : acar A).

Definition number (x : A) : bool := negb (a_isnan A x).

(** The mean of the terms of interpolation between the four pixels around a
    position (lower left, lower right, upper left, upper right; [fx], [fz] from
    the lower left one) that do without a NaN: along the lower, the upper and the
    left edge, and one more along the lower edge. *)
Definition blend (bl br tl tr fx fz : A) : option A :=
  let step p q f from := a_add A (a_mul A (a_sub A q p) f) from in
  let terms :=
    (if number br && number bl then [step bl br fx bl; step bl br fz br] else []) ++
    (if number tr && number tl then [step tl tr fx tl] else []) ++
    (if number tl && number bl then [step bl tl fz bl] else []) in
  match terms with
  | [] => None
  | _ => Some (a_div A (fold_left (a_add A) terms (a_of_Z A 0)) (a_of_Z A (Z.of_nat (length terms))))
  end.

(** What a photo has at a point: nothing; no datum, but what it tried is left in
    the caller's variable; or a datum with its weight. *)
Inductive found := nothing | left_behind (d : A) | datum (v : A) (weight : Z).

Definition judged (v : A) (weight : Z) : found := if number v then datum v weight else left_behind v.

(** At the pixel (sample [i], line [k]) inside the nibbles. *)
Definition at_pixel (f : photo_source A P) (n : nibbles) (sky : bool) (s l i k : Z) (x z : A) : found :=
  let v i k := photo_value nan f s l i k in
  let weight := if sky then 0 else Z.min (Z.min i (s - i)) (Z.min k (l - k)) in
  if ps_interpolate f then
    if (i + 1 + n_right n <? s) && (k + 1 + n_bottom n <? l) then
      match blend (v i k) (v (i + 1) k) (v i (k + 1)) (v (i + 1) (k + 1)) (a_sub A x (a_of_Z A i)) (a_sub A z (a_of_Z A k)) with
      | Some w => judged w weight
      | None => left_behind (v i k)
      end
    else left_behind (v i k)
  else judged (v i k) weight.

(** A photo seen with geometry [ready] has [r] at [pt]. *)
Definition finds (f : photo_source A P) (ready : geometry A P) (n : nibbles) (sky : bool) (s l : Z) (pt : P) (r : found) : Prop :=
  let '(visible, x, z) := g_pix ready pt in
  if negb visible || a_lt A x (a_of_Z A 0) || a_lt A z (a_of_Z A 0) then r = nothing
  else exists i k, a_size A x = Ok i /\ a_size A z = Ok k /\
    ((~ in_window n s l i k /\ r = nothing) \/
     (in_window n s l i k /\
      r = if sky && negb (nth (Z.to_nat (k * s + i)) (g_mask ready s l) false) then nothing else at_pixel f n sky s l i k x z)).

(** What asking with [data] in the variable then gives. *)
Definition answer (r : found) (data : A) : bool * A :=
  match r with
  | nothing => (false, data)
  | left_behind d => (false, if a_isnan A data then data else d)
  | datum v _ => if a_isnan A data then (false, data) else (true, v)
  end.
Definition weighed (r : found) (data weight : A) : bool * A * A :=
  (answer r data, match r with datum _ w => if a_isnan A data then weight else a_of_Z A w | _ => weight end).

(** A source with two axes whose nibbles are inside the image and whose mask of
    the body, if the sky is removed, is of the size of the image. *)
Record proper (f : photo_source A P) (ready : geometry A P) (n : nibbles) (sky : bool) (s l : Z) : Prop := {
  pr_axes : fi_axes (ff_image (ps_file f)) = [s; l];
  pr_config : ps_config f = Some (n, sky);
  pr_ready : exists g, ps_geometry f = Some g /\ rg_ready g (ps_geometric_correction f) s l = Ok ready;
  pr_nibbles : size_nibbles n;
  pr_right : n_right n <= s;
  pr_bottom : n_bottom n <= l;
  pr_mask : sky = true -> Z.of_nat (length (g_mask ready s l)) = s * l }.

(** ** Mosaics *)

(** Up to the first photo that leaves a NaN behind: from then on no photo has a
    datum. *)
Fixpoint heard (l : list found) : list found :=
  match l with
  | left_behind d :: l => left_behind d :: (if a_isnan A d then [] else heard l)
  | r :: l => r :: heard l
  | [] => []
  end.
Definition data_of (l : list found) : list (A * Z) :=
  flat_map (fun r => match r with datum v w => [(v, w)] | _ => [] end) l.
(** The last number put into the variable. *)
Fixpoint last_put (l : list found) : option A :=
  match l with
  | [] => None
  | r :: l => match last_put l with
              | Some d => Some d
              | None => match r with datum v _ => Some v | left_behind d => Some d | nothing => None end
              end
  end.
(** Sums and quotients in [long double]. *)
Definition long_sum (W : wide A) (l : list A) : w_arith W :=
  fold_left (a_add (w_arith W)) (map (w_widen W) l) (a_of_Z (w_arith W) 0).
Definition average_of_found (W : wide A) (l : list found) : option A :=
  match data_of (heard l) with
  | [] => None
  | [_] => last_put (heard l)
  | ds => Some (w_narrow W (a_div (w_arith W) (long_sum W (map fst ds)) (a_of_Z (w_arith W) (Z.of_nat (length ds)))))
  end.
Definition weighted_of_found (W : wide A) (l : list found) : option A :=
  match data_of (heard l) with
  | [] => None
  | [_] => last_put (heard l)
  | ds =>
      let weights := long_sum W (map (fun d => a_of_Z A (snd d)) ds) in
      if a_lt (w_arith W) (a_of_Z (w_arith W) 0) weights
      then Some (w_narrow W (a_div (w_arith W) (long_sum W (map (fun d => a_mul A (a_of_Z A (snd d)) (fst d)) ds)) weights))
      else last_put (heard l)
  end.
(** Neither a datum nor a NaN. *)
Definition silent (r : found) : Prop :=
  match r with nothing => True | left_behind d => a_isnan A d = false | datum _ _ => False end.
End Spec.
Arguments found A : clear implicits.
