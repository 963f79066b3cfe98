(** Proofs for C108. *)
From Coq Require Import List ZArith Bool String Lia.
From Flocq Require Import BinarySingleNaN.
From Verif Require Import Base BaseFacts Flt Num Maths_Model Spheroid_Model Extrema_Model MakeMap_Model Proj_Model Virtual_Model Params_Model Params_Spec Params_Proofs
  Fits_Model Command_Model Command_Spec Command_Proofs Entry_Model Entry_Spec Parse_Model Parse_Spec Parse_Proofs Run_Model Run_Spec Run_Proofs
  RunPlane_Proofs RunPhoto_Proofs RunHeader_Spec.
Import ListNotations.
Open Scope Z_scope.

(** ** Lists of settings *)
Lemma last_of_app {T} (f : setting -> option T) l r :
  last_of f (l ++ r) = match last_of f r with Some t => Some t | None => last_of f l end.
Proof.
  induction r as [|x r IH] using rev_ind; [now rewrite app_nil_r|].
  rewrite app_assoc, !last_app, IH. destruct (f x); reflexivity.
Qed.
Lemma last_of_none {A T} (f : setting -> option T) (g : A -> setting) l : (forall x, f (g x) = None) -> last_of f (map g l) = None.
Proof. intros H. induction l as [|x l IH] using rev_ind; [reflexivity|]. rewrite map_app. cbn [map]. now rewrite last_app, H. Qed.

Definition some {A B} (o : option A) (f : A -> B) : list B := match o with Some a => [f a] | None => [] end.
(** The calls for the parameters of a map; [z] is the blank value. *)
Definition entry_settings (e : map_entry) (z : Z) : list setting :=
  some (me_author e) (give_str k_author) ++ some (me_origin e) (give_str k_origin) ++
  map give_comment (me_comments e) ++ map give_xcomment (me_xcomments e) ++ [give_str k_object (me_body e)] ++
  some (me_offset e) (fun x => give_dbl k_bzero (Some x)) ++ some (me_scale e) (fun x => give_dbl k_bscale (Some x)) ++
  some (me_type e) give_bitpix ++ some (me_blank e) (fun _ => give_blank (Some z)).

Lemma fold_some {A} (o : option A) g p : fold_left (fun p x => give x p) (some o g) p = match o with Some a => give (g a) p | None => p end.
Proof. destruct o; reflexivity. Qed.
Lemma fold_map {A} (g : A -> setting) (h : A -> params -> params) l : (forall a p, give (g a) p = h a p) ->
  forall p, fold_left (fun p x => give x p) (map g l) p = fold_left (fun p a => h a p) l p.
Proof. intros H. induction l as [|a l IH]; intros p; cbn; [reflexivity|]. now rewrite H, IH. Qed.

Lemma params_settings e pa : params_of e = Some pa -> exists z, supplied 0 (entry_settings e z) = Ok pa /\
  (forall n, me_blank e = Some n -> integer n = Parsed z) /\
  (forall n, me_type e = Some n -> In n [8; 16; 32; 64; -32; -64]).
Proof.
  unfold params_of, supplied. destruct (params_new 0) as [p0| |]; cbn [done obind bind]; try discriminate. intros H.
  assert (Q : exists z, match me_blank e with Some n => integer n = Parsed z | None => True end).
  { destruct (me_blank e) as [n|]; [|exists 0; exact I]. destruct (match me_type e with Some t => _ | None => _ end) as [p|]; cbn [obind] in H; [|discriminate].
    unfold data_blank, pbind in H. destruct (integer n) as [z| |]; try discriminate. exists z. reflexivity. }
  destruct Q as [z Q]. exists z. unfold entry_settings. rewrite !fold_left_app, !fold_some.
  rewrite (fold_map give_comment push_comment), (fold_map give_xcomment push_xcomment) by reflexivity. cbn [fold_left].
  unfold when in H. change (fun p0 x => give x p0) with (fun p0 x => give x p0) in H.
  split; [|split].
  - f_equal. cbn [give].
    match type of H with obind (match _ with Some t => done (set_bitpix t ?p) | None => _ end) _ = _ => set (p1 := p) in * end.
    match goal with |- context [match me_type e with Some a => match set_bitpix a ?p with Ok q => q | _ => _ end | None => _ end] => change p with p1 end.
    destruct (me_type e) as [t|].
    + destruct (set_bitpix t p1) as [p2| |]; cbn [done obind] in H; try discriminate.
      destruct (me_blank e) as [n|]; [|now injection H as <-]. unfold data_blank, pbind in H. rewrite Q in H.
      destruct (get_bitpix p2) as [b| |]; try discriminate. destruct (b <? 0); [discriminate|]. destruct (blank_fits b z); [|discriminate].
      now injection H as <-.
    + cbn [obind] in H. destruct (me_blank e) as [n|]; [|now injection H as <-]. unfold data_blank, pbind in H. rewrite Q in H.
      destruct (get_bitpix p1) as [b| |]; try discriminate. destruct (b <? 0); [discriminate|]. destruct (blank_fits b z); [|discriminate].
      now injection H as <-.
  - intros n Hn. now rewrite Hn in Q.
  - intros n Hn. rewrite Hn in H. match type of H with obind (done (set_bitpix _ ?p)) _ = _ => unfold set_bitpix in H end.
    destruct (valid_bitpix n) eqn:V; [|discriminate]. now apply valid_in.
Qed.

(** What they say. *)
Section Settings.
Context (e : map_entry) (z : Z).
Ltac settle := unfold entry_settings; rewrite !last_of_app, !(last_of_none _ give_comment), !(last_of_none _ give_xcomment) by reflexivity;
  unfold some, last_of; destruct (me_author e), (me_origin e), (me_offset e), (me_scale e), (me_type e), (me_blank e); cbn; reflexivity.
Lemma settings_author : last_of (str_of k_author) (entry_settings e z) = me_author e.
Proof. settle. Qed.
Lemma settings_origin : last_of (str_of k_origin) (entry_settings e z) = me_origin e.
Proof. settle. Qed.
Lemma settings_object : last_of (str_of k_object) (entry_settings e z) = Some (me_body e).
Proof. settle. Qed.
Lemma settings_bunit : last_of (str_of k_bunit) (entry_settings e z) = None.
Proof. settle. Qed.
Lemma settings_blank : last_of blank_of (entry_settings e z) = match me_blank e with Some _ => Some (Some z) | None => None end.
Proof. settle. Qed.
Lemma settings_bitpix (Ty : forall n, me_type e = Some n -> In n [8; 16; 32; 64; -32; -64]) : last_of bitpix_of (entry_settings e z) = me_type e.
Proof.
  unfold entry_settings; rewrite !last_of_app, !(last_of_none _ give_comment), !(last_of_none _ give_xcomment) by reflexivity.
  unfold some, last_of. destruct (me_author e), (me_origin e), (me_offset e), (me_scale e), (me_blank e); cbn -[in_dec];
  (destruct (me_type e) as [ty|]; cbn -[in_dec]; [|reflexivity]); (destruct (in_dec _ _ _) as [I|I]; [reflexivity|]); exfalso; apply I, Ty; reflexivity.
Qed.
Lemma settings_comments : comments_of (entry_settings e z) = me_comments e.
Proof.
  unfold comments_of, entry_settings, some. rewrite !flat_map_app.
  assert (A : forall l, flat_map (fun x => match x with give_comment c => [c] | _ => [] end) (map give_comment l) = l).
  { induction l as [|a l IH]; cbn; [reflexivity|]. now rewrite IH. }
  assert (B : forall l, flat_map (fun x => match x with give_comment c => [c] | _ => [] end) (map give_xcomment l) = []) by (induction l; cbn; auto).
  rewrite A, B. destruct (me_author e), (me_origin e), (me_offset e), (me_scale e), (me_type e), (me_blank e); cbn; now rewrite ?app_nil_r.
Qed.
Lemma settings_xcomments : xcomments_of (entry_settings e z) = me_xcomments e.
Proof.
  unfold xcomments_of, entry_settings, some. rewrite !flat_map_app.
  assert (A : forall l, flat_map (fun x => match x with give_xcomment c => [c] | _ => [] end) (map give_xcomment l) = l).
  { induction l as [|a l IH]; cbn; [reflexivity|]. now rewrite IH. }
  assert (B : forall l, flat_map (fun x => match x with give_xcomment c => [c] | _ => [] end) (map give_comment l) = []) by (induction l; cbn; auto).
  rewrite A, B. destruct (me_author e), (me_origin e), (me_offset e), (me_scale e), (me_type e), (me_blank e); cbn; now rewrite ?app_nil_r.
Qed.
End Settings.

(** ** The sources of a map whose parameters were found are standard ones *)
Lemma photo_standard h p q : populate_photo h p = Ok q -> standard h.
Proof.
  unfold populate_photo, set_bitpix, standard. destruct (valid_bitpix (h_bitpix h)) eqn:V; [intros _; now apply valid_in|discriminate].
Qed.
Lemma source_standard s p q : populate s p = Ok q -> standard_source s.
Proof.
  destruct s as [h|hs| |]; cbn [populate standard_source]; try exact (fun _ => I); [apply photo_standard|].
  revert p. induction hs as [|h hs IH]; intros p H; [constructor|]. cbn [populate_mosaic] in H. apply bind_inv in H. destruct H as (p' & A & B).
  constructor; [eapply photo_standard; exact A|eapply IH; exact B].
Qed.
Lemma planes_standard sources : forall n p q, populate_planes n sources p = Ok q -> Forall standard_source sources.
Proof.
  induction sources as [|s l IH]; intros n p q H; [constructor|]. cbn [populate_planes] in H.
  apply bind_inv in H. destruct H as (p1 & _ & H). apply bind_inv in H. destruct H as (p2 & A & H). apply bind_inv in H. destruct H as ([p3 p4] & _ & H).
  constructor; [eapply source_standard; exact A|eapply IH; exact H].
Qed.
Lemma sources_standard sources p q : populate_map_parameters sources p = Ok q -> Forall standard_source sources.
Proof.
  unfold populate_map_parameters. intros H. apply bind_inv in H. destruct H as (p1 & _ & H). apply bind_inv in H. destruct H as (p2 & A & _).
  eapply planes_standard. exact A.
Qed.

(** ** What the planes say *)
Lemma photos_last {T} (f : setting -> option T) hs h : last_of f (photo_settings (List.last hs h)) <> None ->
  last_of f (flat_map photo_settings (h :: hs)) = last_of f (photo_settings (List.last hs h)).
Proof.
  destruct hs as [|a l] using rev_ind; [cbn [flat_map List.last]; now rewrite app_nil_r|]. rewrite last_last. intros N.
  change (h :: l ++ [a]) with ((h :: l) ++ [a]).
  rewrite flat_map_app. cbn [flat_map]. rewrite app_nil_r, last_of_app. destruct (last_of f (photo_settings a)); [reflexivity|contradiction].
Qed.
Lemma photo_str h k : last_of (str_of k) (photo_settings h) = Some (h_str h k).
Proof. destruct k; reflexivity. Qed.
Lemma photo_blank h : last_of blank_of (photo_settings h) = Some (h_blank h).
Proof. reflexivity. Qed.
Lemma photo_bitpix h : standard h -> last_of bitpix_of (photo_settings h) = Some (h_bitpix h).
Proof.
  intros S. unfold photo_settings, last_of. cbn -[in_dec].
  destruct (in_dec Z.eq_dec (h_bitpix h) [8; 16; 32; 64; -32; -64]); [reflexivity|contradiction].
Qed.

Lemma photos_comments hs : comments_of (flat_map photo_settings hs) = [] /\ xcomments_of (flat_map photo_settings hs) = [].
Proof. unfold comments_of, xcomments_of. induction hs as [|h hs [IH1 IH2]]; [split; reflexivity|]. cbn. split; assumption. Qed.

(** What the settings of a source say about a plane. *)
Record tells (X : outside) (p : plane_entry) (l : list setting) : Prop := Tells {
  tl_str : forall k, usable_str k l = match said X k p with EmptyString => None | s => Some s end;
  tl_blank : usable_blank l = match header_of X p with Some h => h_blank h | None => None end;
  tl_bitpix : last_of bitpix_of l = option_map h_bitpix (header_of X p);
  tl_comments : comments_of l = [];
  tl_xcomments : xcomments_of l = [] }.

Lemma photos_tell X p i more hs : pe_type p = T_image i more -> hs = map (fun i => x_header X (ie_file i)) (i :: more) -> Forall standard hs ->
  tells X p (flat_map photo_settings hs).
Proof.
  intros T -> F. set (h := x_header X (ie_file (List.last more i))).
  assert (L : List.last (map (fun i => x_header X (ie_file i)) more) (x_header X (ie_file i)) = h).
  { unfold h. clear. revert i. induction more as [|a l IH]; intros i; [reflexivity|]. cbn [map List.last].
    destruct l as [|b l]; [reflexivity|]. exact (IH i). }
  assert (S : standard h).
  { rewrite Forall_forall in F. apply F. cbn [map]. rewrite <- L. destruct (map (fun i => x_header X (ie_file i)) more) as [|y l] using rev_ind; [left; reflexivity|].
    rewrite last_last. right. apply in_or_app. right. left. reflexivity. }
  cbn [map]. destruct (photos_comments (x_header X (ie_file i) :: map (fun i => x_header X (ie_file i)) more)) as [C1 C2]. constructor.
  - intros k. unfold usable_str, said. rewrite T, photos_last, L, photo_str; [|rewrite L, photo_str; discriminate]. fold h. destruct (h_str h k); reflexivity.
  - unfold usable_blank, header_of. rewrite T, photos_last, L, photo_blank; [|rewrite L, photo_blank; discriminate]. reflexivity.
  - unfold header_of. rewrite T, photos_last, L, (photo_bitpix h S); [|rewrite L, (photo_bitpix h S); discriminate]. reflexivity.
  - exact C1.
  - exact C2.
Qed.

Section Planes.
Context (X : outside) (d : defaults) (b : body) (avg : average).
Local Notation plane_means := (plane_of (x_fmod X) (l_degree (x_libm X)) (x_centric X) (x_au X) (opens X) (refuses X) d b avg).
Lemma image_file i ph : image_of (x_fmod X) (l_degree (x_libm X)) (x_centric X) (x_au X) (opens X) (refuses X) d b i = Some ph -> Parse_Model.ph_file ph = ie_file i.
Proof.
  unfold image_of. intros H.
  repeat match type of H with obind ?y _ = Some _ => destruct y; cbn [obind] in H; [|discriminate] end.
  destruct (_ && _); [|discriminate]. now injection H as <-.
Qed.
Lemma plane_tells p f : plane_means p = Some f -> standard_source (parameters_of X f) -> tells X p (source_settings (parameters_of X f)).
Proof.
  unfold plane_of. destruct (limits_say d (pe_range p)) as [ex|]; cbn [obind]; [|discriminate].
  intros H S. destruct (source_of _ _ _ _ _ _ d b avg (pe_type p)) as [s|] eqn:Hs; cbn [obind] in H; [|discriminate].
  injection H as <-. unfold parameters_of in *. cbn [if_source] in *.
  destruct (pe_type p) as [i more|o r so|o so|o r so|k|] eqn:T; cbn [source_of] in Hs.
  - destruct (all_some _ (i :: more)) as [l|] eqn:A; cbn [obind] in Hs; [|discriminate]. injection Hs as <-.
    apply all_some_Forall2 in A.
    assert (M : map (fun p => x_header X (Parse_Model.ph_file p)) l = map (fun i => x_header X (ie_file i)) (i :: more)).
    { clear - A. induction A as [|a c l l' H A IH]; [reflexivity|]. cbn [map]. rewrite IH. f_equal. now rewrite (image_file _ _ H). }
    destruct l as [|ph [|ph2 l]].
    + inversion A.
    + cbn [map] in M. cbn [source_settings standard_source] in *.
      rewrite <- (app_nil_r (photo_settings _)). change (photo_settings ?h ++ []) with (flat_map photo_settings [h]).
      apply (photos_tell X p i more); [exact T|exact M|constructor; [exact S|constructor]].
    + cbn [source_settings standard_source] in *. apply (photos_tell X p i more); [exact T|exact M|exact S].
  - destruct (point_of _ _ _ b o) as [x|]; cbn [obind] in Hs; [|discriminate].
    destruct (optional so _); cbn [obind] in Hs; [|discriminate]. injection Hs as <-.
    constructor; unfold said, header_of; rewrite ?T; reflexivity.
  - destruct (optional o _); cbn [obind] in Hs; [|discriminate].
    destruct (point_of _ _ _ b so) as [x|]; cbn [obind] in Hs; [|discriminate]. injection Hs as <-.
    constructor; unfold said, header_of; rewrite ?T; reflexivity.
  - destruct (point_of _ _ _ b o) as [x|]; cbn [obind] in Hs; [|discriminate].
    destruct (point_of _ _ _ b so) as [y|]; cbn [obind] in Hs; [|discriminate]. injection Hs as <-.
    constructor; unfold said, header_of; rewrite ?T; reflexivity.
  - injection Hs as <-. constructor; unfold said, header_of; rewrite ?T; try reflexivity. intros []; reflexivity.
  - injection Hs as <-. constructor; unfold said, header_of; rewrite ?T; try reflexivity. intros []; reflexivity.
Qed.
End Planes.

Lemma first_str X k ps ls : Forall2 (tells X) ps ls ->
  match first_of (usable_str k) ls with Some s => s | None => EmptyString end = first_said (map (said X k) ps).
Proof.
  unfold first_said. induction 1 as [|p l ps ls H F IH]; [reflexivity|]. cbn [first_of map find]. rewrite (tl_str _ _ _ H k).
  destruct (said X k p) as [|c s]; [exact IH|]. reflexivity.
Qed.
Lemma first_blank X ps ls : Forall2 (tells X) ps ls ->
  first_of usable_blank ls = RunHeader_Spec.first_some (fun p => match header_of X p with Some h => h_blank h | None => None end) ps.
Proof.
  induction 1 as [|p l ps ls H F IH]; [reflexivity|]. cbn [first_of RunHeader_Spec.first_some fold_right]. rewrite (tl_blank _ _ _ H).
  destruct (match header_of X p with Some h => _ | None => _ end); [reflexivity|]. exact IH.
Qed.
Lemma first_bitpix X ps ls : Forall2 (tells X) ps ls ->
  first_of (last_of bitpix_of) ls = RunHeader_Spec.first_some (fun p => option_map h_bitpix (header_of X p)) ps.
Proof.
  induction 1 as [|p l ps ls H F IH]; [reflexivity|]. cbn [first_of RunHeader_Spec.first_some fold_right]. rewrite (tl_bitpix _ _ _ H).
  destruct (option_map _ _); [reflexivity|]. exact IH.
Qed.
Lemma no_comments X ps ls : Forall2 (tells X) ps ls -> flat_map comments_of ls = [] /\ flat_map xcomments_of ls = [].
Proof.
  induction 1 as [|p l ps ls H F [IH1 IH2]]; [split; reflexivity|]. cbn [flat_map]. rewrite (tl_comments _ _ _ H), (tl_xcomments _ _ _ H). split; assumption.
Qed.

(** ** The command of an entry *)
Lemma projection_title fm dg ce co b e x : projection_of fm dg ce co b e = Some x -> name_of x = title e.
Proof.
  unfold projection_of. destruct (projection_args fm dg ce b e) as [y|] eqn:A; cbn [obind]; [|discriminate].
  destruct (nothing_thrown (co y)); [|discriminate]. intros H. injection H as <-.
  destruct e as [a|[[a o]|]|[[[a n] ml]|]|[[[[a k] la] lo]|]]; cbn [projection_args] in A; try (injection A as <-; reflexivity).
  all: repeat match type of A with obind ?y _ = Some _ => destruct y; cbn [obind] in A; [|discriminate] end; injection A as <-; reflexivity.
Qed.

Lemma header_entry X u ts cmds n e : unmixed ts -> commands_of X (texts u ts) = Ok (Some cmds) -> nth_error (maps_of ts) n = Some e ->
  exists m d b, nth_error cmds n = Some m /\ from_input X m /\ params_of e = Some (mc_params m) /\ name_of (mc_projection m) = title (me_projection e) /\
    Forall2 (fun p f => plane_of (x_fmod X) (l_degree (x_libm X)) (x_centric X) (x_au X) (opens X) (refuses X) d b (average_of (me_projection e)) p = Some f)
      (planes_of e) (mc_images m) /\
    kept (positive_size (me_samples e)) = Some (mc_samples m) /\ kept (positive_size (me_lines e)) = Some (mc_lines m) /\
    (mc_grid m = None <-> forall i, me_grid e <> Some (true, i)).
Proof.
  intros U H N. assert (H' := H). unfold commands_of in H. apply run_means in H; [|exact U]. destruct H as (d & _ & H).
  destruct (Forall2_nth_r _ _ _ H n e N) as (m & Nm & Mm & _). exists m, d. unfold map_body in Mm.
  destruct (params_of e) as [pa|] eqn:Pa; cbn [obind] in Mm; [|discriminate].
  destruct (body_spheroid (me_prograde e) (me_radii e)) as [b| |] eqn:Hb; cbn [done obind] in Mm; try discriminate.
  exists b. split; [exact Nm|]. split. { exists u, ts, cmds. split; [exact H'|]. eapply nth_error_In. exact Nm. }
  destruct (grid_says d e) as [g|] eqn:Hg; cbn [obind] in Mm; [|discriminate].
  destruct (projection_of _ _ _ _ b (me_projection e)) as [x|] eqn:Hx; cbn [obind] in Mm; [|discriminate].
  destruct (kept (positive_size (me_samples e))) as [sa|] eqn:Es; cbn [obind] in Mm; [|discriminate].
  destruct (kept (positive_size (me_lines e))) as [li|] eqn:El; cbn [obind] in Mm; [|discriminate].
  match type of Mm with obind ?y _ = _ => destruct y as [fs|] eqn:Hf; cbn [obind] in Mm; [|discriminate] end.
  injection Mm as <-. cbn [mc_projection mc_images mc_params mc_samples mc_lines mc_grid].
  split; [reflexivity|]. split; [eapply projection_title; exact Hx|]. split; [apply all_some_Forall2; exact Hf|]. split; [reflexivity|]. split; [reflexivity|].
  unfold grid_says in Hg. destruct (me_grid e) as [[[|] [i|]]|]; cbn [obind] in Hg.
  - match type of Hg with obind ?y _ = _ => destruct y; cbn [obind] in Hg; [|discriminate] end. injection Hg as <-.
    split; [discriminate|]. intros Q. exfalso. exact (Q _ eq_refl).
  - injection Hg as <-. split; [discriminate|]. intros Q. exfalso. exact (Q _ eq_refl).
  - match type of Hg with obind ?y _ = _ => destruct y; cbn [obind] in Hg; [|discriminate] end. injection Hg as <-.
    split; [intros _ ? Q; discriminate|reflexivity].
  - injection Hg as <-. split; [intros _ ? Q; discriminate|reflexivity].
  - injection Hg as <-. split; [intros _ ? Q; discriminate|reflexivity].
Qed.

(** ** The cards of the planes *)
Definition cards_from (p : params) (num : Z) : Z -> list simage -> list (list card) :=
  fix go n l := match l with [] => [] | i :: l => scaling_cards p num n i :: go (n + 1) l end.
Lemma planes_cards_concat p num l : forall n, planes_cards p num n l = List.concat (cards_from p num n l).
Proof. induction l as [|i l IH]; intros n; [reflexivity|]. cbn [planes_cards cards_from List.concat]. now rewrite IH. Qed.
Lemma cards_from_nth p num l : forall n j cs, nth_error (cards_from p num n l) j = Some cs ->
  exists i, nth_error l j = Some i /\ cs = scaling_cards p num (n + Z.of_nat j) i.
Proof.
  induction l as [|i l IH]; intros n [|j] cs H; try discriminate; cbn [cards_from nth_error] in *.
  - injection H as <-. exists i. split; [reflexivity|]. f_equal. lia.
  - destruct (IH _ _ _ H) as (i' & A & B). exists i'. split; [exact A|]. rewrite B. f_equal. lia.
Qed.
Lemma cards_from_length p num l : forall n, List.length (cards_from p num n l) = List.length l.
Proof. induction l as [|i l IH]; intros n; [reflexivity|]. cbn [cards_from List.length]. now rewrite IH. Qed.
Lemma produced_length os : Forall (fun o : option simage * extrema (ct F64) => fst o <> None) os -> List.length (produced (map fst os)) = List.length os.
Proof. induction 1 as [|[[i|] ex] l H F IH]; [reflexivity| |exfalso; now apply H]. cbn [map fst produced List.length]. f_equal. exact IH. Qed.

(** A photo has no scaling, a computed plane has one. *)
Lemma made_scaling X f t i ex : make_of X f t = Ok (Some i, ex) ->
  match if_source f with F_photo _ | F_mosaic _ _ => si_scaling i = None | _ => si_scaling i <> None end.
Proof.
  assert (V : forall k phys l, computed X t k phys l = Ok (Some i, ex) -> si_scaling i <> None).
  { intros k phys l E. unfold computed in E. apply bind_inv in E. destruct E as ([[s o'] e] & _ & E). injection E as <- _. discriminate. }
  unfold make_of. destruct (if_source f) as [p|l a|b la lo r|b la lo|b la lo sla slo r|b g|]; try apply V.
  - intros H. apply bind_inv in H. destruct H as ([[o|] s] & _ & H); [|discriminate]. injection H as <- _. reflexivity.
  - intros H. apply bind_inv in H. destruct H as (ps & _ & H). apply bind_inv in H. destruct H as (y & _ & H). injection H as <- _. reflexivity.
Qed.
Lemma plane_kind fm dg ce au op re d b avg p f : plane_of fm dg ce au op re d b avg p = Some f ->
  match pe_type p with T_image _ _ => match if_source f with F_photo _ | F_mosaic _ _ => True | _ => False end
  | _ => match if_source f with F_photo _ | F_mosaic _ _ => False | _ => True end end.
Proof.
  unfold plane_of. destruct (limits_say d (pe_range p)) as [ex|]; cbn [obind]; [|discriminate].
  intros H. destruct (source_of _ _ _ _ _ _ d b avg (pe_type p)) as [s|] eqn:Hs; cbn [obind] in H; [|discriminate].
  injection H as <-. cbn [if_source].
  destruct (pe_type p) as [i more|o r so|o so|o r so|k|]; cbn [source_of] in Hs;
  repeat match type of Hs with obind ?y _ = Some _ => destruct y; cbn [obind] in Hs; [|discriminate] end; injection Hs as <-; try exact I.
  match goal with |- context [match ?x with [] => _ | _ => _ end] => destruct x as [|? [|? ?]]; exact I end.
Qed.
Lemma bitpix_integral b t : type_of_bitpix b = Some t -> c_integral (ct t) = whole_numbers t /\ (b <? 0) = negb (whole_numbers t).
Proof.
  unfold type_of_bitpix.
  destruct (Z.eqb_spec b 8); [subst; intros H; injection H as <-; split; reflexivity|].
  destruct (Z.eqb_spec b 16); [subst; intros H; injection H as <-; split; reflexivity|].
  destruct (Z.eqb_spec b 32); [subst; intros H; injection H as <-; split; reflexivity|].
  destruct (Z.eqb_spec b 64); [subst; intros H; injection H as <-; split; reflexivity|].
  destruct (Z.eqb_spec b (-32)); [subst; intros H; injection H as <-; split; reflexivity|].
  destruct (Z.eqb_spec b (-64)); [subst; intros H; injection H as <-; split; reflexivity|discriminate].
Qed.

(** ** C108 *)
Theorem entry_header X fuel status left_over removable u ts cmds n e :
  unmixed ts -> commands_of X (texts u ts) = Ok (Some cmds) -> nth_error (maps_of ts) n = Some e ->
  exists m, nth_error cmds n = Some m /\
  positive_size (me_samples e) = Parsed (mc_samples m) /\ positive_size (me_lines e) = Parsed (mc_lines m) /\
  forall c w w' r, command_of X fuel m = Some c -> execute status left_over removable c w = (w', Ok r) ->
  exists b t cards d,
    bitpix_is X e b /\ type_of_bitpix b = Some t /\ header_says X e t cards /\
    let map_array := Hdu t (image_axes (mc_samples m) (mc_lines m) (plane_count e)) cards d in
    ((forall i, me_grid e <> Some (true, i)) /\ w_file w' = new_file [map_array] \/
     exists i dg, me_grid e = Some (true, i) /\
       w_file w' = new_file [map_array; Hdu U8 (image_axes (mc_samples m) (mc_lines m) 1) (grid_header e) dg]).
Proof.
  intros U H N. destruct (header_entry X u ts cmds n e U H N) as (m & df & b0 & Nm & Fr & Pa & Ti & Pl & Es & El & Gr).
  exists m. split; [exact Nm|].
  assert (KP : forall A (x : parsed A) y, kept x = Some y -> x = Parsed y) by (intros A [x| |] y Q; try discriminate; now injection Q as <-).
  split; [now apply KP|]. split; [now apply KP|]. intros c w w' r C E.
  destruct (command_inv X fuel m c C) as (o & _ & Cs & Cl & Cf & Cp & Cn).
  assert (Cg : c_grid c = None <-> mc_grid m = None).
  { unfold command_of in C. destruct (calls_of _ _ _ _) as [calls [o'| |]]; try discriminate. destruct (mc_grid m) as [[la lo]|].
    - destruct (grid_of _ _ _ _ _ _ _); [|discriminate]. injection C as <-. cbn. split; discriminate.
    - injection C as <-. cbn. split; reflexivity. }
  apply execute_success in E. destruct E as (_ & p & b & t & os & maps & limits & d & Hp & Hb & Ht & F & _ & _ & G).
  destruct (params_settings e _ Pa) as (z & Su & Zb & Zt).
  assert (Hp' := Hp). rewrite Cf, Cp, map_map in Hp'. change (fun x => f_source (factory_of X x)) with (parameters_of X) in Hp'.
  assert (St := sources_standard _ _ _ Hp').
  destruct (command_resolves (entry_settings e z) _ St) as (p' & Rp & Rs).
  rewrite Su in Rp. cbn [bind] in Rp. rewrite Hp' in Rp. injection Rp as <-.
  assert (Te : Forall2 (tells X) (planes_of e) (map source_settings (map (parameters_of X) (mc_images m)))).
  { clear - Pl St. induction Pl as [|q f l l' A Pl IH]; [constructor|]. cbn [map] in *. inversion St; subst. constructor; [|auto].
    eapply plane_tells; eassumption. }
  set (ls := map source_settings (map (parameters_of X) (mc_images m))) in *. clearbody ls.
  destruct Rs as (RS & _ & RB & RN & RC & RX). rewrite settings_blank in RB. rewrite (settings_bitpix e z Zt) in RN.
  rewrite settings_comments in RC. rewrite settings_xcomments in RX. destruct (no_comments X _ _ Te) as [N1 N2]. rewrite N1 in RC. rewrite N2 in RX.
  assert (RC' : p_comments p = me_comments e) by (rewrite RC; destruct (me_comments e); reflexivity).
  assert (RX' : p_xcomments p = me_xcomments e) by (rewrite RX; destruct (me_xcomments e); reflexivity).
  assert (A1 := RS k_author). rewrite settings_author, (first_str X k_author _ _ Te) in A1.
  assert (A2 := RS k_origin). rewrite settings_origin, (first_str X k_origin _ _ Te) in A2.
  assert (A3 := RS k_object). rewrite settings_object in A3.
  assert (A4 := RS k_bunit). rewrite settings_bunit, (first_str X k_bunit _ _ Te) in A4.
  rewrite (first_blank X _ _ Te) in RB. rewrite (first_bitpix X _ _ Te) in RN.
  assert (Vb : valid_bitpix (p_bitpix p) = true /\ p_bitpix p = b).
  { unfold get_bitpix in Hb. destruct (valid_bitpix (p_bitpix p)); [|discriminate]. injection Hb as <-. auto. }
  destruct Vb as [Vb Bb]. destruct (bitpix_integral b t Ht) as [Ig Ng].
  assert (Rd : ready_command m) by (eapply input_ready; exact Fr).
  assert (Len : List.length (c_factories c) = List.length (planes_of e)).
  { rewrite Cf, map_length. symmetry. clear - Pl. induction Pl; cbn; congruence. }
  assert (Pc : Z.of_nat (List.length (c_factories c)) = plane_count e) by (rewrite Len; reflexivity).
  assert (Os : Forall (fun o : option simage * extrema (ct F64) => fst o <> None) os).
  { rewrite Cf in F. clear - F Rd. unfold ready_command in Rd. remember (mc_images m) as im. clear Heqim.
    revert os F. induction im as [|f im IH]; intros os F; cbn [map] in F; inversion F as [|? [o ex] ? os' Mk F']; subst; [constructor|].
    inversion Rd; subst. constructor; [|now apply IH]. eapply make_not_null; [eassumption|exact Mk]. }
  set (cards := header_cards c t p (produced (map fst os)) limits) in *.
  exists b, t, cards, d. split.
  { unfold bitpix_is. rewrite Bb in RN. destruct (me_type e) as [k|]; [exact RN|].
    destruct (RunHeader_Spec.first_some (fun p => option_map h_bitpix (header_of X p)) (planes_of e)) as [k|]; [apply f_equal; symmetry; exact RN|]. rewrite Bb, RN in Vb. discriminate. }
  split; [exact Ht|]. split.
  - exists (p_blank p), (cards_from p (plane_count e) 1 (produced (map fst os))),
      (match limits with Some (Some mn, Some mx) => datum_card "DATAMIN" t mn ++ datum_card "DATAMAX" t mx | _ => [] end).
    split. { unfold blank_is. rewrite RB. destruct (me_blank e) as [k|]; [|reflexivity]. exists z. split; [now apply Zb|reflexivity]. }
    split. { rewrite cards_from_length, (produced_length _ Os), <- Len. clear - F. induction F as [|? ? ? ? _ _ IH]; [reflexivity|]. cbn [List.length]. apply f_equal. exact IH. }
    split.
    { intros j q cs J Q. apply cards_from_nth in Q. destruct Q as (i & Q & ->).
      destruct (Forall2_nth_r _ _ _ Pl j q J) as (f & Jf & Pq).
      assert (Jf' : nth_error (c_factories c) j = Some (factory_of X f)) by (rewrite Cf; now apply map_nth_error).
      destruct (Forall2_nth_r _ _ _ F j _ Jf') as ([oi ex] & Jo & Mk). unfold makes in Mk. cbn [f_make factory_of] in Mk.
      assert (Oi : oi = Some i).
      { destruct oi as [i'|].
        - assert (P1 := produced_nth os Os j i' ex Jo). rewrite Q in P1. now injection P1 as ->.
        - rewrite Forall_forall in Os. exfalso. apply (Os _ (nth_error_In _ _ Jo)). reflexivity. }
      subst oi. assert (Sc := made_scaling X f t i ex Mk). assert (Kd := plane_kind _ _ _ _ _ _ _ _ _ _ _ Pq).
      unfold plane_cards, scaling_cards. rewrite Bb, Ng.
      assert (Cmp : si_scaling i <> None -> pe_type q <> T_longitude -> True) by auto.
      rewrite A4. rewrite (Z.add_comm 1). fold (plane_count e).
      change (Z.of_nat (List.length (planes_of e))) with (plane_count e).
      destruct (pe_type q) as [? ?| | | | |]; destruct (if_source f); try contradiction.
      1, 2: now rewrite Sc.
      all: (destruct (si_scaling i) as [[sc off]|]; [|contradiction]); destruct (whole_numbers t); cbn [negb]; [|reflexivity];
        eexists; eexists; reflexivity. }
    split. { destruct limits as [[[mn|] [mx|]]|]; auto. right. exists mn, mx. reflexivity. }
    unfold cards, header_cards. rewrite Ig, RC', Cn, Ti, Pc, A1, A2, A3, planes_cards_concat. unfold under. reflexivity.
  - intros map_array. rewrite Cs, Cl, Pc in G. fold cards in G. destruct G as [[G1 G2]|(g & dg & G1 & _ & G2)].
    + left. split; [|exact G2]. now apply Gr, Cg.
    + right. assert (Q : exists i, me_grid e = Some (true, i)).
      { destruct (me_grid e) as [[[|] i]|]; eauto; exfalso; assert (Q : mc_grid m = None) by (apply Gr; intros i' Q; discriminate);
        apply Cg in Q; rewrite Q in G1; discriminate. }
      destruct Q as [i Q]. exists i, dg. split; [exact Q|]. rewrite G2. unfold grid_cards, grid_header. rewrite RX', Cn, Ti. reflexivity.
Qed.

(** ** C109 *)
Lemma photos_unscaled X e t cards : header_says X e t cards -> Forall (fun p => exists i more, pe_type p = T_image i more) (planes_of e) ->
  forall x, ~ In (key_double "BSCALE" x) cards /\ ~ In (key_double "BZERO" x) cards.
Proof.
  intros (blank & scalings & limits & _ & Ln & Sc & Li & ->) F x.
  assert (Z0 : List.concat scalings = []).
  { assert (A : forall cs, In cs scalings -> cs = []).
    { intros cs I. apply In_nth_error in I. destruct I as [j J].
      assert (B : (j < List.length (planes_of e))%nat) by (rewrite <- Ln; apply nth_error_Some; congruence).
      apply nth_error_Some in B. destruct (nth_error (planes_of e) j) as [p|] eqn:P; [|contradiction].
      assert (C := Sc j p cs P J). rewrite Forall_forall in F. destruct (F p (nth_error_In _ _ P)) as (i & more & T).
      unfold plane_cards in C. now rewrite T in C. }
    clear - A. induction scalings as [|cs l IH]; [reflexivity|]. cbn [List.concat]. rewrite (A cs (or_introl eq_refl)). apply IH. intros c I. apply A. now right. }
  rewrite Z0.
  assert (Q : forall k, k = "BSCALE"%string \/ k = "BZERO"%string -> ~ In (key_double k x)
    ((match blank with Some z => if whole_numbers t then [key_int "BLANK" z] else [] | None => [] end) ++
        string_card "AUTHOR" (under X e k_author (me_author e)) ++ string_card "ORIGIN" (under X e k_origin (me_origin e)) ++
        string_card "OBJECT" (me_body e) ++ map card_comment (me_comments e) ++ [card_projection (title (me_projection e))] ++ [] ++ limits)).
  { intros k K. assert (SC : forall n v, ~ In (key_double k x) (string_card n v)).
    { intros n v. unfold string_card. destruct v; [intros []|intros [I|[]]; discriminate]. }
    assert (DC : forall n v, ~ In (key_double k x) (datum_card n t v)).
    { intros n v. unfold datum_card. destruct (is_nan _); [intros []|intros [I|[]]; discriminate]. }
    rewrite !in_app_iff. intros [I|[I|[I|[I|[I|[I|[I|I]]]]]]].
    - destruct blank; [destruct (whole_numbers t)|]; cbn in I; intuition discriminate.
    - now apply SC in I.
    - now apply SC in I.
    - now apply SC in I.
    - apply in_map_iff in I. destruct I as (y & I & _). discriminate.
    - cbn in I. intuition discriminate.
    - destruct I.
    - destruct Li as [->|(mn & mx & ->)]; [destruct I|]. apply in_app_iff in I. destruct I as [I|I]; now apply DC in I. }
  split; apply Q; auto.
Qed.
Theorem photos_no_scale X fuel status left_over removable u ts cmds n e m c w w' r h rest x :
  unmixed ts -> commands_of X (texts u ts) = Ok (Some cmds) -> nth_error (maps_of ts) n = Some e -> nth_error cmds n = Some m ->
  command_of X fuel m = Some c -> execute status left_over removable c w = (w', Ok r) -> w_file w' = new_file (h :: rest) ->
  Forall (fun p => exists i more, pe_type p = T_image i more) (planes_of e) ->
  ~ In (key_double "BSCALE" x) (h_cards h) /\ ~ In (key_double "BZERO" x) (h_cards h).
Proof.
  intros U H N Nm C E W F. destruct (entry_header X fuel status left_over removable u ts cmds n e U H N) as (m' & Nm' & _ & _ & G).
  rewrite Nm in Nm'. injection Nm' as <-. destruct (G c w w' r C E) as (b & t & cards & d & _ & _ & Hs & L).
  assert (Q : h_cards h = cards). { cbv zeta in L. destruct L as [[_ L]|(i & dg & _ & L)]; rewrite W in L; injection L as -> _; reflexivity. }
  rewrite Q. exact (photos_unscaled X e t cards Hs F x).
Qed.
