(** [MapFactory::make_map] and [plot] (lib/marc/MapFactory_t.cpp),
    [plot_info] (lib/marc/plot_info.h), [Progress::Notifier]
    (lib/marc/Notifier.cpp) and the plane loop of src/MapCommand_t.cpp. *)
From Coq Require Import List ZArith Bool.
From Flocq Require Import Core BinarySingleNaN.
From Verif Require Import Base Flt Extrema_Model.
Import ListNotations.
Open Scope Z_scope.

(** What an observer receives. *)
Inductive event :=
| Notify (map_size count : Z)   (* Observer::notify(map_size, plot_count) *)
| Reset.                        (* Observer::reset() *)

(** lib/marc/Notifier.h: the count and the subscribed observers.  Each observer
    is represented by the events it has received so far. *)
Record notifier := Notifier { plot_count : Z; observers : list (list event) }.

(** lib/marc/Notifier.cpp:18-22. *)
Definition notifier_new : notifier := Notifier 0 [].

(** lib/marc/Notifier.cpp:24-32. *)
Definition subscribe (n : notifier) : notifier :=
  Notifier (plot_count n) (observers n ++ [[]]).

(** lib/marc/Notifier.cpp:34-52.  A failing assert() is [ub_assert]. *)
Definition notify_plotted (n : notifier) (map_size : Z) : outcome notifier :=
  if (0 <? map_size) && (plot_count n <? map_size) then
    let c := wrap (plot_count n + 1) in
    Ok (Notifier c (map (fun o => o ++ [Notify map_size c]) (observers n)))
  else UB ub_assert.

(** lib/marc/Notifier.cpp:54-71. *)
Definition notify_done (n : notifier) (map_size : Z) : outcome notifier :=
  if 0 <? map_size then
    Ok (Notifier 0 (map (fun o => o ++ [Notify map_size map_size; Reset]) (observers n)))
  else UB ub_assert.

(** lib/marc/plot_info.h:37-170. *)
Record plot_info (T : ctype) := PlotInfo {
  pi_samples : Z;
  pi_lines : Z;
  pi_extrema : extrema T;
  pi_blank : option Z;          (* std::optional<std::intmax_t> *)
  pi_notifier : notifier }.
Arguments PlotInfo {T}.
Arguments pi_samples {T}. Arguments pi_lines {T}. Arguments pi_extrema {T}.
Arguments pi_blank {T}. Arguments pi_notifier {T}.

(** Constructors, lib/marc/plot_info.h:56-64 and 80-89. *)
Definition plot_info_new {T} (samples lines : Z) (blank : option Z) : plot_info T :=
  PlotInfo samples lines ex_empty blank notifier_new.

Definition set_notifier {T} (i : plot_info T) (n : notifier) : plot_info T :=
  PlotInfo (pi_samples i) (pi_lines i) (pi_extrema i) (pi_blank i) n.

(** lib/marc/plot_info.h:134. *)
Definition update_extrema {T} (i : plot_info T) (d : T) : plot_info T :=
  PlotInfo (pi_samples i) (pi_lines i) (ex_update (pi_extrema i) d) (pi_blank i) (pi_notifier i).

(** lib/marc/plot_info.h:137. *)
Definition data_mapped {T} (i : plot_info T) : bool := is_valid (pi_extrema i).

(** A plotted point: planetocentric latitude and longitude. *)
Definition point := (double * double)%type.

(** [SourceImage::read_data(lat, lon, data)]: success flag and the value left
    in the by-reference argument, whose incoming value is the second argument. *)
Definition reader := point -> double -> outcome (bool * double).

Section Map.
Context {T : ctype}.

(** [get_extrema], lib/marc/MapFactory_t.cpp:24-35.  The T-typed bounds are
    converted to [double] by the call of Map_traits<T>::minimum/maximum in the
    extrema constructor. *)
Definition get_extrema (e : extrema T) : outcome (extrema T) :=
  let mn := match e_min e with Some a => a | None => c_lowest T end in
  let mx := match e_max e with Some b => b | None => c_max T end in
  ex_make (c_to_double T mn) (c_to_double T mx).

(** Blank value set-up, lib/marc/MapFactory_t.cpp:46-56. *)
Definition map_blank (b : option Z) : outcome T :=
  if c_integral T then
    match b with
    | Some z => if (z <? c_lo T) || (c_hi T <? z) then Throw invalid_argument
                else Ok (c_of_Z T z)
    | None => Ok (c_empty T)
    end
  else Ok (c_empty T).

Definition zero_datum : double := B754_zero false.

(** [plot], lib/marc/MapFactory_t.cpp:78-107. *)
Definition plot (read : reader) (e : extrema T) (st : list T * plot_info T)
    (pt : point) (offset : Z) : outcome (list T * plot_info T) :=
  let (map, info) := st in
  bind (read pt zero_datum) (fun r =>
  let (ok, datum) := r in
  bind (if ok && in_range e datum then
          bind (c_of_double T datum) (fun v =>
          if (0 <=? offset) && (offset <? Z.of_nat (length map)) then
            Ok (upd map (Z.to_nat offset) v, update_extrema info v)
          else UB ub_access)
        else Ok (map, info)) (fun st' =>
  let (map', info') := st' in
  bind (notify_plotted (pi_notifier info') (Z.of_nat (length map'))) (fun n =>
  Ok (map', set_notifier info' n)))).

(** The calls of the plot functor that a projection's plot_map() issues. *)
Fixpoint plot_calls (read : reader) (e : extrema T) (calls : list (point * Z))
    (st : list T * plot_info T) : outcome (list T * plot_info T) :=
  match calls with
  | [] => Ok st
  | (pt, off) :: rest =>
      bind (plot read e st pt off) (fun st' => plot_calls read e rest st')
  end.

(** [make_map], lib/marc/MapFactory_t.cpp:39-76.  [calls] is the sequence of
    plot calls issued by the projection (virtual plot_map). *)
Definition make_map (read : reader) (minmax : extrema T) (info : plot_info T)
    (calls : list (point * Z)) : outcome (list T * plot_info T) :=
  bind (map_blank (pi_blank info)) (fun blank =>
  let map := repeat blank (Z.to_nat (wrap (pi_samples info * pi_lines info))) in
  bind (get_extrema minmax) (fun e =>
  bind (plot_calls read e calls (map, info)) (fun st =>
  let (map', info') := st in
  bind (notify_done (pi_notifier info') (Z.of_nat (length map'))) (fun n =>
  Ok (map', set_notifier info' n))))).

End Map.

(** One plane of a map command: the factory yields an image or null
    (src/MapCommand_t.cpp:129-132) and its limits (extrema<double>). *)
Record plane := Plane { pl_image : option reader; pl_minmax : extrema (ct F64) }.

(** Result of the plane loop: maps written and, for each, whether the
    "No data mapped for plane" warning was issued. *)
Fixpoint make_planes (t : mapty) (calls : list (point * Z)) (planes : list plane)
    (info : plot_info (ct t)) : outcome (list (list (ct t) * bool) * plot_info (ct t)) :=
  match planes with
  | [] => Ok ([], info)
  | p :: rest =>
      match pl_image p with
      | None => make_planes t calls rest info          (* line 131-132 *)
      | Some read =>
          bind (ex_convert t (pl_minmax p)) (fun mm =>
          bind (make_map read mm info calls) (fun r =>
          let (map, info') := r in
          let warned := negb (data_mapped info') in    (* line 166-167 *)
          bind (make_planes t calls rest info') (fun r' =>
          Ok ((map, warned) :: fst r', snd r'))))
      end
  end.

(** src/MapCommand_t.cpp:120-185: fresh plot_info with one console observer,
    the plane loop, and the DATAMIN/DATAMAX keywords (lines 176-184). *)
Definition make_map_planes (t : mapty) (samples lines : Z) (blank : option Z)
    (calls : list (point * Z)) (planes : list plane)
  : outcome (list (list (ct t) * bool) * option (option (ct t) * option (ct t))) :=
  let info := plot_info_new samples lines blank in
  let info := set_notifier info (subscribe (pi_notifier info)) in
  bind (make_planes t calls planes info) (fun r =>
  let (maps, info') := r in
  Ok (maps, if data_mapped info' then Some (e_min (pi_extrema info'), e_max (pi_extrema info')) else None)).
