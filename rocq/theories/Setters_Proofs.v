(** Proofs for C127. *)
From Coq Require Import List ZArith.
From Verif Require Import Base Setters_Model Setters_Spec.
Import ListNotations.
Open Scope Z_scope.

Lemma latest_cons {C V} (says : C -> option V) initial c l v :
  latest says (match says c with Some w => w | None => initial end) l v -> latest says initial (c :: l) v.
Proof.
  intros H. inversion H as [l0 F|before d after w E F]; subst.
  - destruct (says c) as [w|] eqn:E.
    + exact (latest_said says initial [] c l w E F).
    + apply latest_none. now constructor.
  - exact (latest_said says initial (c :: before) d after v E F).
Qed.

Section Setters.
Context {P I G : Type}.
Local Notation setter := (setter P I G).
Local Notation settings := (settings P I G).

Definition all_latest (s0 : settings) (p : P) (i : I) (g : G) (l : list setter) (s : settings) : Prop :=
  (exists p', s_photometry s = Some p' /\ latest says_photometry p l p') /\
  (exists i', s_interpolation s = Some i' /\ latest says_interpolation i l i') /\
  (exists g', s_geometry s = Some g' /\ latest says_geometry g l g') /\
  latest says_left (s_left s0) l (s_left s) /\ latest says_right (s_right s0) l (s_right s) /\
  latest says_top (s_top s0) l (s_top s) /\ latest says_bottom (s_bottom s0) l (s_bottom s) /\
  latest says_sky (s_remove_sky s0) l (s_remove_sky s).

Lemma set_all_latest (l : list setter) : forall s0 p i g, s_photometry s0 = Some p -> s_interpolation s0 = Some i -> s_geometry s0 = Some g ->
  all_latest s0 p i g l (fst (set_all l s0)).
Proof.
  induction l as [|c l IH]; intros s0 p i g Hp Hi Hg.
  - cbn [set_all fst]. unfold all_latest. repeat split; try (apply latest_none; constructor); eexists; (split; [eassumption|apply latest_none; constructor]).
  - destruct s0 as [a1 a2 a3 a4 p0 i0 k0 g0]. cbn [s_photometry s_interpolation s_geometry] in Hp, Hi, Hg. subst p0 i0 g0.
    destruct c as [[x|]|[x|]|[x|]|n|n|n|n|n|k]; cbn [set_all set];
      match goal with |- context [set_all l ?s1] => specialize (IH s1 _ _ _ eq_refl eq_refl eq_refl); destruct (set_all l s1) as [s' threw] end;
      cbn [fst] in *; unfold all_latest in *; cbn [s_left s_right s_top s_bottom s_remove_sky] in IH;
      destruct IH as ((p' & E1 & L1) & (i' & E2 & L2) & (g' & E3 & L3) & L4 & L5 & L6 & L7 & L8);
      cbn [s_left s_right s_top s_bottom s_remove_sky];
      (split; [exists p'; split; [exact E1|now apply latest_cons]|]);
      (split; [exists i'; split; [exact E2|now apply latest_cons]|]);
      (split; [exists g'; split; [exact E3|now apply latest_cons]|]);
      repeat split; apply latest_cons; assumption.
Qed.

Lemma set_throws (c : setter) s : match set c s with Ok _ => ~ passes_null c | Throw e => e = invalid_argument /\ passes_null c | UB _ => False end.
Proof.
  destruct s. unfold passes_null. destruct c as [[x|]|[x|]|[x|]|n|n|n|n|n|k]; cbn [set]; try (split; auto);
    (intros [E|[E|E]]; discriminate E).
Qed.

Lemma set_all_threw (l : list setter) : forall s, Forall2 (fun c threw => threw = true <-> passes_null c) l (snd (set_all l s)).
Proof.
  induction l as [|c l IH]; intros s; cbn [set_all]; [constructor|].
  pose proof (set_throws c s) as T. destruct (set c s) as [s'|x|x]; [| |contradiction].
  - specialize (IH s'). destruct (set_all l s') as [s2 threw]. cbn [snd] in *. constructor; [|exact IH]. split; [discriminate|intros N; contradiction].
  - specialize (IH s). destruct (set_all l s) as [s2 threw]. cbn [snd] in *. constructor; [|exact IH]. destruct T as [_ T]. split; auto.
Qed.

(** Calls with null pointers might as well not have been made. *)
Theorem setters_latest (p : P) (i : I) (g : G) (l : list setter) :
  let s := fst (set_all l (settings_new p i g)) in
  (exists p', s_photometry s = Some p' /\ latest says_photometry p l p') /\
  (exists i', s_interpolation s = Some i' /\ latest says_interpolation i l i') /\
  (exists g', s_geometry s = Some g' /\ latest says_geometry g l g') /\
  latest says_left 0 l (s_left s) /\ latest says_right 0 l (s_right s) /\
  latest says_top 0 l (s_top s) /\ latest says_bottom 0 l (s_bottom s) /\ latest says_sky false l (s_remove_sky s) /\
  Forall2 (fun c threw => threw = true <-> passes_null c) l (snd (set_all l (settings_new p i g))).
Proof.
  cbv zeta. destruct (set_all_latest l (settings_new p i g) p i g eq_refl eq_refl eq_refl) as (A & B & C & D & E & F & H & K).
  repeat (split; [assumption|]). apply set_all_threw.
Qed.
End Setters.
