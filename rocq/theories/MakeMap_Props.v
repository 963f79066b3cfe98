(** Property theorems C10-C16: making maps. *)
From Coq Require Import List ZArith Reals Lra Lia.
From Flocq Require Import Core BinarySingleNaN.
From Verif Require Import Base Flt Extrema_Model Extrema_Spec MakeMap_Model MakeMap_Spec
  Extrema_Proofs MakeMap_Proofs.
Import ListNotations.
Open Scope R_scope.

(** C10: a map holds exactly the readable data between the limits, converted
    to the map type, and the blank value elsewhere.  [stores] is a function of
    the image, the limits and the calls (next theorem).  Full statement: all
    limits and map types.  Missing: 64-bit maps without a user maximum
    ([limits] excludes them; they are undefined, C11). *)
Theorem C10_map_contents_partial :
  forall t read (mm : extrema (ct t)) (info : plot_info (ct t)) calls lo hi blank,
  limits t mm lo hi -> lo <= hi ->
  blank_of t (pi_blank info) = Some blank ->
  proper_size info -> proper_calls read (cells info) calls ->
  plot_count (pi_notifier info) = 0%Z ->
  exists m info' l,
    make_map read mm info calls = Ok (m, info') /\
    stores read lo hi calls l /\ map_contents t (cells info) blank l m.
Proof. exact map_contents_ok. Qed.
Print Assumptions C10_map_contents_partial.

Theorem C10_stores_unique : forall read lo hi calls l l',
  stores read lo hi calls l -> stores read lo hi calls l' -> l = l'.
Proof. exact stores_fun. Qed.
Print Assumptions C10_stores_unique.

(** Crossed limits are rejected. *)
Theorem C10_crossed_limits_rejected :
  forall t read (mm : extrema (ct t)) info calls lo hi blank,
  blank_of t (pi_blank info) = Some blank ->
  limits t mm lo hi -> hi < lo -> make_map read mm info calls = Throw invalid_argument.
Proof. exact make_map_crossed. Qed.
Print Assumptions C10_crossed_limits_rejected.

Example C10_case :
  limits I16 (@Extrema (ct I16) (Some (-5)%Z) (Some 100%Z)) (-5) 100 /\
  proper_size (plot_info_new (T := ct I16) 2 2 (Some (-1)%Z)) /\
  proper_calls sample_image 4 sample_calls /\
  map_of (make_map sample_image (@Extrema (ct I16) (Some (-5)%Z) (Some 100%Z))
      (plot_info_new 2 2 (Some (-1)%Z)) sample_calls)
    = Some ([10; 10; -1; -1]%Z : list (ct I16)).
Proof.
  split; [|split; [|split]].
  - split; [|split; [|discriminate]]; cbn; (split; [reflexivity|]); (split; [lra|]).
    + exists (double_of_Z (-5)). apply dval_Z. lia.
    + exists (double_of_Z 100). apply dval_Z. lia.
  - unfold proper_size, cells. cbn. lia.
  - split; [|cbn; lia]. intros pt c [E|[E|[E|[]]]]; injection E as <- <-;
      (split; [lia|]); unfold sample_image; destruct (flt _ _); eexists; reflexivity.
  - vm_compute. reflexivity.
Qed.

(** C11: with limits as above no plotted datum is converted with undefined
    behaviour, whatever the image yields. *)
Theorem C11_no_undefined_conversion_partial :
  forall t read (mm : extrema (ct t)) info calls lo hi,
  limits t mm lo hi -> (forall pt, read pt zero_datum <> UB ub_conversion) ->
  make_map read mm info calls <> UB ub_conversion.
Proof. exact make_map_no_conversion_ub. Qed.
Print Assumptions C11_no_undefined_conversion_partial.

(** C11 is false for 64-bit maps: without a user maximum EVERY such map is
    undefined, whatever the image and the projection. *)
Theorem C11_int64_refuted : forall read (mm : extrema (ct I64)) info calls blank,
  blank_of I64 (pi_blank info) = Some blank ->
  (forall a, e_min mm = Some a -> in_type I64 a) -> e_max mm = None ->
  make_map read mm info calls = UB ub_conversion.
Proof. exact int64_make_map_ub. Qed.
Print Assumptions C11_int64_refuted.

Example C11_case :
  limits F32 ex_empty (- FLT_MAX) FLT_MAX /\
  make_map (constant_image (double_of_Z 7)) (T := ct I64) ex_empty (plot_info_new 1 1 None) one_cell
    = UB ub_conversion.
Proof.
  split; [split; [reflexivity|split; [reflexivity|discriminate]]|].
  apply (int64_make_map_ub _ _ _ _ (0%Z : ct I64)); [reflexivity|discriminate|reflexivity].
Qed.

(** C12: DATA_MIN / DATA_MAX that the map type can represent select exactly
    the data between them. *)
Theorem C12_limits_select_partial :
  forall t read (e : extrema (ct F64)) (info : plot_info (ct t)) calls lo hi blank,
  plane_limits t e lo hi -> lo <= hi ->
  blank_of t (pi_blank info) = Some blank ->
  proper_size info -> proper_calls read (cells info) calls ->
  plot_count (pi_notifier info) = 0%Z ->
  exists m info' l,
    bind (ex_convert t e) (fun mm => make_map read mm info calls) = Ok (m, info') /\
    stores read lo hi calls l /\ map_contents t (cells info) blank l m.
Proof. exact plane_selection. Qed.
Print Assumptions C12_limits_select_partial.

(** C12 is false for limits that the map type cannot represent. *)
Theorem C12_limits_select_refuted :
  map_of (bind (ex_convert I16 (@Extrema (ct F64) (Some (dlit 21 (-1))) (Some (double_of_Z 100))))
     (fun mm => make_map (constant_image (dlit 41 (-2))) mm (plot_info_new 1 1 None) one_cell))
     = Some [10%Z : ct I16] /\
  flt (dlit 41 (-2)) (dlit 21 (-1)) = true /\
  map_of (bind (ex_convert I16 (@Extrema (ct F64) (Some (double_of_Z 1)) (Some (dlit 21 (-1)))))
     (fun mm => make_map (constant_image (dlit 41 (-2))) mm (plot_info_new 1 1 None) one_cell))
     = Some [0%Z : ct I16] /\
  flt (double_of_Z 1) (dlit 41 (-2)) = true /\ flt (dlit 41 (-2)) (dlit 21 (-1)) = true.
Proof. exact truncated_limits_refuted. Qed.
Print Assumptions C12_limits_select_refuted.

Example C12_case :
  plane_limits I16 (@Extrema (ct F64) (Some (double_of_Z 10)) (Some (double_of_Z 100))) 10 100 /\
  map_of (bind (ex_convert I16 (@Extrema (ct F64) (Some (double_of_Z 10)) (Some (double_of_Z 100))))
     (fun mm => make_map (constant_image (dlit 41 (-2))) mm (plot_info_new 1 1 None) one_cell))
     = Some [10%Z : ct I16].
Proof.
  split; [|vm_compute; reflexivity].
  split; [|split; [|discriminate]]; (split; [apply dval_Z; lia|]); (split; [cbn; lra|]).
  - exists (10%Z : ct I16). reflexivity.
  - exists (100%Z : ct I16). reflexivity.
Qed.

(** C13: reported extrema are the extremes of the stored data. *)
Theorem C13_reported_extremes_partial :
  forall t read (mm : extrema (ct t)) (info : plot_info (ct t)) calls lo hi blank,
  limits t mm lo hi -> lo <= hi ->
  blank_of t (pi_blank info) = Some blank ->
  proper_size info -> proper_calls read (cells info) calls ->
  plot_count (pi_notifier info) = 0%Z -> pi_extrema info = ex_empty ->
  exists m info' l,
    make_map read mm info calls = Ok (m, info') /\
    stores read lo hi calls l /\ extremes_of t l (pi_extrema info') /\
    (data_mapped info' = true <-> l <> []).
Proof. exact extrema_reported. Qed.
Print Assumptions C13_reported_extremes_partial.

(** The DATAMIN/DATAMAX written for all planes together. *)
Theorem C13_keywords_of_all_planes_partial :
  forall t samples lines blank bv calls planes,
  (0 < samples)%Z -> (0 < lines)%Z -> (samples * lines < 2 ^ 64)%Z ->
  blank_of t blank = Some bv ->
  (forall p read, In p planes -> pl_image p = Some read ->
     (exists lo hi, plane_limits t (pl_minmax p) lo hi /\ lo <= hi) /\
     proper_calls read (samples * lines) calls) ->
  exists res kw l,
    make_map_planes t samples lines blank calls planes = Ok (res, kw) /\
    planes_spec t calls (samples * lines) bv [] planes res l /\
    match kw with
    | None => l = []
    | Some (mn, mx) => l <> [] /\ extremes_of t l (Extrema mn mx)
    end.
Proof. exact make_map_planes_ok. Qed.
Print Assumptions C13_keywords_of_all_planes_partial.

Example C13_case :
  make_map_planes I16 1 1 None one_cell
    [Plane (Some (constant_image (double_of_Z 7))) ex_empty; Plane None ex_empty;
     Plane (Some (constant_image (double_of_Z (-2)))) ex_empty]
  = Ok ([([7%Z : ct I16], false); ([(-2)%Z : ct I16], false)],
        Some (Some ((-2)%Z : ct I16), Some (7%Z : ct I16))).
Proof. vm_compute. reflexivity. Qed.

(** C14: the blank value (with C10: every unmapped cell holds it). *)
Theorem C14_blank_value : forall t (o : option Z),
  map_blank (T := ct t) o =
  match blank_of t o with Some b => Ok b | None => Throw invalid_argument end.
Proof. exact map_blank_spec. Qed.
Print Assumptions C14_blank_value.

Theorem C14_misfit_blank_rejected : forall t read (mm : extrema (ct t)) info calls,
  blank_of t (pi_blank info) = None -> make_map read mm info calls = Throw invalid_argument.
Proof. exact make_map_bad_blank. Qed.
Print Assumptions C14_misfit_blank_rejected.

Theorem C14_float_nan_iff_unmapped :
  forall t read (mm : extrema (ct t)) (info : plot_info (ct t)) calls lo hi,
  is_int_type t = false ->
  limits t mm lo hi -> lo <= hi ->
  proper_size info -> proper_calls read (cells info) calls ->
  plot_count (pi_notifier info) = 0%Z ->
  exists m info' l,
    make_map read mm info calls = Ok (m, info') /\ stores read lo hi calls l /\
    forall c, (0 <= c < cells info)%Z ->
      exists v, nth_error m (Z.to_nat c) = Some v /\ (tval t v = None <-> ~ In c (map fst l)).
Proof. exact float_cell_nan. Qed.
Print Assumptions C14_float_nan_iff_unmapped.

Example C14_case :
  blank_of U8 (Some 256%Z) = None /\ blank_of I16 (Some (-32768)%Z) = Some ((-32768)%Z : ct I16) /\
  option_map (map (tval F64)) (map_of (make_map (constant_image (double_of_Z 7)) (T := ct F64) ex_empty
     (plot_info_new 2 1 (Some 5%Z)) one_cell)) = Some [Some 7; None].
Proof.
  split; [reflexivity|split; [reflexivity|]].
  set (o := map_of _).
  assert (E : option_map (map B2SF) o = Some [B2SF (double_of_Z 7); SpecFloat.S754_nan])
    by (vm_compute; reflexivity).
  destruct o as [[|a [|b [|c r]]]|]; try discriminate. cbn [option_map map] in E.
  injection E as Ea Eb. assert (a = double_of_Z 7) as -> by now apply B2SF_inj.
  destruct b; try discriminate. cbn [option_map map].
  change (tval F64 (double_of_Z 7)) with (dval (double_of_Z 7)).
  rewrite dval_Z by lia. reflexivity.
Qed.

(** C15: what every observer receives for a run over several planes: for each
    map the counts 1, 2, ..., k, then the map size, then a reset. *)
Theorem C15_observers :
  forall t calls n blank planes (info : plot_info (ct t)),
  pi_extrema info = ex_empty -> cells info = n -> proper_size info ->
  blank_of t (pi_blank info) = Some blank -> plot_count (pi_notifier info) = 0%Z ->
  (forall p read, In p planes -> pl_image p = Some read ->
     (exists lo hi, plane_limits t (pl_minmax p) lo hi /\ lo <= hi) /\ proper_calls read n calls) ->
  exists res info',
    make_planes t calls planes info = Ok (res, info') /\
    observers (pi_notifier info') =
      map (fun o => o ++ concat (repeat (progress n (length calls) ++ [Notify n n; Reset]) (length res)))
          (observers (pi_notifier info)).
Proof. exact observers_ok. Qed.
Print Assumptions C15_observers.

Theorem C15_counts_bounded : forall n k ev,
  (0 < n)%Z -> (Z.of_nat k <= n)%Z -> In ev (progress n k) ->
  exists c, ev = Notify n c /\ (1 <= c <= n)%Z.
Proof. exact progress_bounds. Qed.
Print Assumptions C15_counts_bounded.

Example C15_case :
  match make_map sample_image (@Extrema (ct I16) (Some (-5)%Z) (Some 100%Z))
      (set_notifier (plot_info_new 2 2 None) (subscribe notifier_new)) sample_calls with
  | Ok (_, info') => observers (pi_notifier info')
  | _ => []
  end = [[Notify 4 1; Notify 4 2; Notify 4 3; Notify 4 4; Reset]].
Proof. vm_compute. reflexivity. Qed.

(** C16: what the warning reports: "nothing stored so far", so the statement
    holds up to and including the first plane with data ([planes_spec]) ... *)
Theorem C16_warning_partial :
  forall t samples lines blank bv calls planes,
  (0 < samples)%Z -> (0 < lines)%Z -> (samples * lines < 2 ^ 64)%Z ->
  blank_of t blank = Some bv ->
  (forall p read, In p planes -> pl_image p = Some read ->
     (exists lo hi, plane_limits t (pl_minmax p) lo hi /\ lo <= hi) /\
     proper_calls read (samples * lines) calls) ->
  exists res kw l,
    make_map_planes t samples lines blank calls planes = Ok (res, kw) /\
    planes_spec t calls (samples * lines) bv [] planes res l /\
    match kw with
    | None => l = []
    | Some (mn, mx) => l <> [] /\ extremes_of t l (Extrema mn mx)
    end.
Proof. exact make_map_planes_ok. Qed.
Print Assumptions C16_warning_partial.

(** ... and is false for the planes after it. *)
Theorem C16_warning_refuted :
  map_of (make_map_planes I16 1 1 None one_cell
    [Plane (Some (constant_image (double_of_Z 7))) ex_empty; Plane (Some empty_image) ex_empty])
  = Some [([7%Z : ct I16], false); ([0%Z : ct I16], false)].
Proof. exact warning_refuted. Qed.
Print Assumptions C16_warning_refuted.

Example C16_case :
  map_of (make_map_planes I16 1 1 None one_cell
    [Plane (Some empty_image) ex_empty; Plane (Some (constant_image (double_of_Z 7))) ex_empty])
  = Some [([0%Z : ct I16], true); ([7%Z : ct I16], false)].
Proof. vm_compute. reflexivity. Qed.
