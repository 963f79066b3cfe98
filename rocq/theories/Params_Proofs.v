(** Proofs for C58 and C59. *)
From Coq Require Import List ZArith Bool String Lia.
From Flocq Require Import BinarySingleNaN.
From Verif Require Import Base Flt Params_Model Params_Spec.
Import ListNotations.
Open Scope Z_scope.

Lemma skey_eqb_spec a b : skey_eqb a b = if skey_dec a b then true else false.
Proof. destruct a, b; reflexivity. Qed.
Lemma dkey_eqb_spec a b : dkey_eqb a b = if dkey_dec a b then true else false.
Proof. destruct a, b; reflexivity. Qed.

Lemma valid_in n : valid_bitpix n = true <-> In n [8; 16; 32; 64; -32; -64].
Proof.
  unfold valid_bitpix. rewrite !orb_true_iff, !Z.eqb_eq. simpl. intuition auto.
Qed.

(** ** One set of parameters *)
Lemma last_app {T} (f : setting -> option T) l x :
  last_of f (l ++ [x]) = match f x with Some t => Some t | None => last_of f l end.
Proof. unfold last_of. now rewrite fold_left_app. Qed.

(** Contents after a list of settings on a set of plane [n]. *)
Record given (n : Z) (l : list setting) (p : params) : Prop := Given {
  g_plane : p_plane p = n;
  g_str : forall k, p_str p k = match last_of (str_of k) l with Some s => s | None => EmptyString end;
  g_dbl : forall k, p_dbl p k = match last_of (dbl_of k) l with Some d => d | None => None end;
  g_blank : p_blank p = match last_of blank_of l with Some b => b | None => None end;
  g_bitpix : p_bitpix p = match last_of bitpix_of l with Some b => b | None => 0 end;
  g_comments : p_comments p = comments_of l;
  g_xcomments : p_xcomments p = xcomments_of l;
  g_lstr : n = 0 -> forall k, p_locked p (KS k) = match last_of (str_of k) l with Some _ => true | None => false end;
  g_ldbl : n = 0 -> forall k, p_locked p (KD k) = match last_of (dbl_of k) l with Some _ => true | None => false end;
  g_lblank : n = 0 -> p_locked p KBlank = match last_of blank_of l with Some _ => true | None => false end;
  g_lc : n = 0 -> p_locked p KComment = match comments_of l with [] => false | _ => true end;
  g_lx : n = 0 -> p_locked p KXComment = match xcomments_of l with [] => false | _ => true end }.

Lemma nonempty_app {A B} (l m : list A) (x y : B) : m <> [] ->
  match l ++ m with [] => x | _ => y end = y.
Proof. intros H. destruct l; cbn; [destruct m; [contradiction|reflexivity]|reflexivity]. Qed.

Lemma given_step n l p x : given n l p -> given n (l ++ [x]) (give x p).
Proof.
  intros G. destruct G as [Gp Gs Gd Gb Gn Gc Gx Ls Ld Lb Lc Lx].
  assert (U : user_supplied p = (n =? 0)) by (unfold user_supplied; now rewrite Gp).
  destruct x as [k s|k d|b|m|c|c]; unfold give, set_str, set_dbl, set_blank, set_bitpix, push_comment, push_xcomment, lock.
  - unfold user_supplied; cbn [p_plane put_str]; rewrite Gp.
    destruct (Z.eqb_spec n 0) as [E|E]; constructor; cbn -[in_dec]; intros; rewrite ?last_app; cbn -[in_dec]; auto;
    unfold comments_of, xcomments_of; rewrite ?flat_map_app; cbn -[in_dec]; rewrite ?app_nil_r; auto; try contradiction.
    + rewrite skey_eqb_spec. destruct (skey_dec k0 k), (skey_dec k k0); congruence || auto.
    + rewrite skey_eqb_spec. destruct (skey_dec k0 k), (skey_dec k k0); try congruence; cbn; auto.
    + rewrite skey_eqb_spec. destruct (skey_dec k0 k), (skey_dec k k0); congruence || auto.
  - unfold user_supplied; cbn [p_plane put_dbl]; rewrite Gp.
    destruct (Z.eqb_spec n 0) as [E|E]; constructor; cbn -[in_dec]; intros; rewrite ?last_app; cbn -[in_dec]; auto;
    unfold comments_of, xcomments_of; rewrite ?flat_map_app; cbn -[in_dec]; rewrite ?app_nil_r; auto; try contradiction.
    + rewrite dkey_eqb_spec. destruct (dkey_dec k0 k), (dkey_dec k k0); congruence || auto.
    + rewrite dkey_eqb_spec. destruct (dkey_dec k0 k), (dkey_dec k k0); try congruence; cbn; auto.
    + rewrite dkey_eqb_spec. destruct (dkey_dec k0 k), (dkey_dec k k0); congruence || auto.
  - unfold user_supplied; cbn [p_plane put_blank]; rewrite Gp.
    destruct (Z.eqb_spec n 0) as [E|E]; constructor; cbn -[in_dec]; intros; rewrite ?last_app; cbn -[in_dec]; auto;
    unfold comments_of, xcomments_of; rewrite ?flat_map_app; cbn -[in_dec]; rewrite ?app_nil_r; auto; try contradiction.
  - pose proof (valid_in m) as V. destruct (valid_bitpix m) eqn:Vm.
    + constructor; cbn -[in_dec]; intros; rewrite ?last_app; cbn -[in_dec]; auto;
      unfold comments_of, xcomments_of; rewrite ?flat_map_app; cbn -[in_dec]; rewrite ?app_nil_r; auto.
      destruct (in_dec Z.eq_dec m [8; 16; 32; 64; -32; -64]) as [H|H]; [reflexivity|]. exfalso. apply H. now apply V.
    + constructor; cbn -[in_dec]; intros; rewrite ?last_app; cbn -[in_dec]; auto;
      unfold comments_of, xcomments_of; rewrite ?flat_map_app; cbn -[in_dec]; rewrite ?app_nil_r; auto.
      destruct (in_dec Z.eq_dec m [8; 16; 32; 64; -32; -64]) as [H|H]; [|auto]. apply V in H. discriminate.
  - unfold user_supplied; cbn [p_plane put_comments]; rewrite Gp.
    destruct (Z.eqb_spec n 0) as [E|E]; constructor; cbn -[in_dec]; intros; rewrite ?last_app; cbn -[in_dec]; auto;
    unfold comments_of, xcomments_of; rewrite ?flat_map_app; cbn -[in_dec]; rewrite ?app_nil_r; auto; try contradiction;
    try (rewrite Gc; reflexivity).
    rewrite nonempty_app; [reflexivity|discriminate].
  - unfold user_supplied; cbn [p_plane put_xcomments]; rewrite Gp.
    destruct (Z.eqb_spec n 0) as [E|E]; constructor; cbn -[in_dec]; intros; rewrite ?last_app; cbn -[in_dec]; auto;
    unfold comments_of, xcomments_of; rewrite ?flat_map_app; cbn -[in_dec]; rewrite ?app_nil_r; auto; try contradiction;
    try (rewrite Gx; reflexivity).
    rewrite nonempty_app; [reflexivity|discriminate].
Qed.

Lemma given_all n l' : forall l p, given n l p -> given n (l ++ l') (fold_left (fun p x => give x p) l' p).
Proof.
  induction l' as [|x l' IH]; intros l p G; cbn [fold_left].
  - now rewrite app_nil_r.
  - change (x :: l') with ([x] ++ l'). rewrite app_assoc. apply IH. now apply given_step.
Qed.

Lemma given_new n p : params_new n = Ok p -> given n [] p.
Proof.
  unfold params_new. destruct (n <? 0); [discriminate|]. intros H. injection H as <-.
  constructor; intros; reflexivity.
Qed.

Lemma supplied_given n l : 0 <= n -> exists p, supplied n l = Ok p /\ given n l p.
Proof.
  intros N. unfold supplied.
  assert (E : exists p, params_new n = Ok p).
  { unfold params_new. destruct (Z.ltb_spec n 0); [lia|]. eexists. reflexivity. }
  destruct E as [p E]. rewrite E. cbn [bind]. eexists. split; [reflexivity|].
  exact (given_all n l [] p (given_new n p E)).
Qed.

Lemma given_bitpix n l p : given n l p -> p_bitpix p = 0 \/ valid_bitpix (p_bitpix p) = true.
Proof.
  intros G. rewrite (g_bitpix _ _ _ G).
  assert (H : forall n, last_of bitpix_of l = Some n -> valid_bitpix n = true).
  { clear G. induction l as [|x l IH] using rev_ind; intros m; [discriminate|].
    rewrite last_app. destruct (bitpix_of x) as [t|] eqn:E; [|apply IH].
    intros H. injection H as ->. destruct x; try discriminate. cbn -[in_dec] in E.
    destruct (in_dec Z.eq_dec n0 [8; 16; 32; 64; -32; -64]) as [I|I]; [|discriminate]. injection E as <-. now apply valid_in. }
  destruct (last_of bitpix_of l) as [m|]; auto.
Qed.

(** ** One merge *)
(** What a merge leaves alone. *)
Definition same_locks (p q : params) : Prop := p_plane q = p_plane p /\ p_locked q = p_locked p.
Lemma same_mergeable p q k : same_locks p q -> is_mergeable q k = is_mergeable p k.
Proof. intros [A B]. unfold is_mergeable, user_supplied. now rewrite A, B. Qed.
Lemma same_refl p : same_locks p p. Proof. split; reflexivity. Qed.
Lemma same_trans p q r : same_locks p q -> same_locks q r -> same_locks p r.
Proof. intros [A B] [C D]. split; congruence. Qed.

Lemma merge_str_spec k p t :
  let r := merge_str k p t in
  same_locks t r /\ p_bitpix r = p_bitpix t /\ p_dbl r = p_dbl t /\ p_blank r = p_blank t /\
  p_comments r = p_comments t /\ p_xcomments r = p_xcomments t /\
  (forall j, p_str r j = if skey_dec j k then
     (if is_mergeable t (KS k) && String.eqb (p_str t k) "" then p_str p k else p_str t k) else p_str t j).
Proof.
  unfold merge_str. destruct (is_mergeable t (KS k)); cbn; [destruct (String.eqb (p_str t k) "")|];
  repeat split; cbn; intros; try rewrite skey_eqb_spec; destruct (skey_dec j k); subst; reflexivity.
Qed.

Lemma merge_dbl_spec k p t :
  let r := merge_dbl k p t in
  same_locks t r /\ p_bitpix r = p_bitpix t /\ p_str r = p_str t /\ p_blank r = p_blank t /\
  p_comments r = p_comments t /\ p_xcomments r = p_xcomments t /\
  (forall j, p_dbl r j = if dkey_dec j k then
     match p_dbl p k, p_dbl t k with
     | Some f, None => if negb (is_nan f) && is_mergeable t (KD k) then Some f else None
     | _, x => x
     end else p_dbl t j).
Proof.
  unfold merge_dbl. destruct (p_dbl p k) as [f|] eqn:Ef.
  - destruct (is_nan f) eqn:Nf; cbn [orb negb andb].
    + repeat split. intros j. destruct (dkey_dec j k); [subst; destruct (p_dbl t k)|]; reflexivity.
    + destruct (is_mergeable t (KD k)); cbn [negb].
      * destruct (p_dbl t k) as [x|] eqn:Et.
        -- destruct (Maths_Model.almost_equal _ _ _ _ _); [|destruct (user_supplied t)];
           repeat split; intros j; destruct (dkey_dec j k); subst; auto.
        -- repeat split. intros j. cbn. rewrite dkey_eqb_spec. destruct (dkey_dec j k); reflexivity.
      * repeat split. intros j. destruct (dkey_dec j k); [subst; destruct (p_dbl t k)|]; reflexivity.
  - repeat split. intros j. destruct (dkey_dec j k); [subst; destruct (p_dbl t k)|]; reflexivity.
Qed.

Lemma merge_blank_spec p t :
  let r := merge_blank p t in
  same_locks t r /\ p_bitpix r = p_bitpix t /\ p_str r = p_str t /\ p_dbl r = p_dbl t /\
  p_comments r = p_comments t /\ p_xcomments r = p_xcomments t /\
  p_blank r = match p_blank p, p_blank t with
              | Some f, None => if is_mergeable t KBlank then Some f else None
              | _, x => x
              end.
Proof.
  unfold merge_blank. destruct (p_blank p) as [f|] eqn:Ef.
  - destruct (is_mergeable t KBlank); cbn [negb].
    + destruct (p_blank t) as [x|] eqn:Et.
      * destruct (x =? f); [|destruct (user_supplied t)]; repeat split; auto.
      * repeat split.
    + repeat split. destruct (p_blank t); reflexivity.
  - destruct (p_blank t); repeat split.
Qed.

Lemma merge_spec this p : p_bitpix p = 0 \/ valid_bitpix (p_bitpix p) = true ->
  exists t p', merge this p = Ok (t, p') /\ same_locks this t /\
    p_bitpix t = (if negb (p_bitpix p =? 0) && ((p_bitpix this =? 0) || negb (user_supplied this)) then
                    if (p_bitpix this =? 0) || ((0 <? p_bitpix p) && (p_bitpix this <? p_bitpix p))
                       || ((p_bitpix p <? 0) && (p_bitpix p <? p_bitpix this))
                    then p_bitpix p else p_bitpix this else p_bitpix this) /\
    (forall k, p_str t k = if is_mergeable this (KS k) && String.eqb (p_str this k) "" then p_str p k else p_str this k) /\
    (forall k, p_dbl t k = match k with
       | k_datamin | k_datamax => p_dbl this k
       | _ => match p_dbl p k, p_dbl this k with
              | Some f, None => if negb (is_nan f) && is_mergeable this (KD k) then Some f else None
              | _, x => x
              end end) /\
    p_blank t = match p_blank p, p_blank this with
                | Some f, None => if is_mergeable this KBlank then Some f else None
                | _, x => x
                end /\
    p_comments t = (if is_mergeable this KComment then p_comments this ++ p_comments p else p_comments this) /\
    p_xcomments t = (if is_mergeable this KXComment then p_xcomments this ++ p_xcomments p else p_xcomments this).
Proof.
  intros V. unfold merge.
  match goal with |- context [bind ?b _] => assert (B : exists t0, b = Ok t0 /\ same_locks this t0 /\
    p_bitpix t0 = (if negb (p_bitpix p =? 0) && ((p_bitpix this =? 0) || negb (user_supplied this)) then
                    if (p_bitpix this =? 0) || ((0 <? p_bitpix p) && (p_bitpix this <? p_bitpix p))
                       || ((p_bitpix p <? 0) && (p_bitpix p <? p_bitpix this))
                    then p_bitpix p else p_bitpix this else p_bitpix this) /\
    p_str t0 = p_str this /\ p_dbl t0 = p_dbl this /\ p_blank t0 = p_blank this /\
    p_comments t0 = p_comments this /\ p_xcomments t0 = p_xcomments this) end.
  { destruct (Z.eqb_spec (p_bitpix p) 0) as [E|E]; cbn [negb andb].
    - exists this. repeat split.
    - destruct V as [V|V]; [contradiction|].
      destruct ((p_bitpix this =? 0) || negb (user_supplied this)).
      + match goal with |- context [if ?c then set_bitpix _ _ else _] => destruct c end.
        * unfold set_bitpix. rewrite V. eexists. split; [reflexivity|]. repeat split.
        * exists this. repeat split.
      + exists this. repeat split. }
  destruct B as (t0 & -> & S0 & B0 & Q1 & Q2 & Q3 & Q4 & Q5). cbn [bind].
  destruct (merge_str_spec k_author p t0) as (S1 & B1 & D1 & A1 & C1 & X1 & T1).
  set (t1 := merge_str k_author p t0) in *.
  destruct (merge_blank_spec p t1) as (S2 & B2 & T2 & D2 & C2 & X2 & A2).
  set (t2 := merge_blank p t1) in *.
  destruct (merge_dbl_spec k_bscale p t2) as (S3 & B3 & T3 & A3 & C3 & X3 & D3).
  set (t3 := merge_dbl k_bscale p t2) in *.
  destruct (merge_str_spec k_bunit p t3) as (S4 & B4 & D4 & A4 & C4 & X4 & T4).
  set (t4 := merge_str k_bunit p t3) in *.
  destruct (merge_dbl_spec k_bzero p t4) as (S5 & B5 & T5 & A5 & C5 & X5 & D5).
  set (t5 := merge_dbl k_bzero p t4) in *.
  destruct (merge_dbl_spec k_equinox p t5) as (S6 & B6 & T6 & A6 & C6 & X6 & D6).
  set (t6 := merge_dbl k_equinox p t5) in *.
  destruct (merge_str_spec k_instrument p t6) as (S7 & B7 & D7 & A7 & C7 & X7 & T7).
  set (t7 := merge_str k_instrument p t6) in *.
  destruct (merge_str_spec k_object p t7) as (S8 & B8 & D8 & A8 & C8 & X8 & T8).
  set (t8 := merge_str k_object p t7) in *.
  destruct (merge_str_spec k_observer p t8) as (S9 & B9 & D9 & A9 & C9 & X9 & T9).
  set (t9 := merge_str k_observer p t8) in *.
  destruct (merge_str_spec k_origin p t9) as (S10 & B10 & D10 & A10 & C10 & X10 & T10).
  set (t10 := merge_str k_origin p t9) in *.
  destruct (merge_str_spec k_reference p t10) as (S11 & B11 & D11 & A11 & C11 & X11 & T11).
  set (t11 := merge_str k_reference p t10) in *.
  destruct (merge_str_spec k_telescope p t11) as (S12 & B12 & D12 & A12 & C12 & X12 & T12).
  set (t12 := merge_str k_telescope p t11) in *.
  assert (L1 := same_trans _ _ _ S0 S1). assert (L2 := same_trans _ _ _ L1 S2).
  assert (L3 := same_trans _ _ _ L2 S3). assert (L4 := same_trans _ _ _ L3 S4).
  assert (L5 := same_trans _ _ _ L4 S5). assert (L6 := same_trans _ _ _ L5 S6).
  assert (L7 := same_trans _ _ _ L6 S7). assert (L8 := same_trans _ _ _ L7 S8).
  assert (L9 := same_trans _ _ _ L8 S9). assert (L10 := same_trans _ _ _ L9 S10).
  assert (L11 := same_trans _ _ _ L10 S11). assert (L12 := same_trans _ _ _ L11 S12).
  assert (FB : p_bitpix t12 = p_bitpix t0) by congruence.
  assert (FA : p_blank t12 = p_blank t2) by congruence.
  assert (FC : p_comments t12 = p_comments this) by congruence.
  assert (FX : p_xcomments t12 = p_xcomments this) by congruence.
  assert (FS : forall k, p_str t12 k =
    if is_mergeable this (KS k) && String.eqb (p_str this k) "" then p_str p k else p_str this k).
  { intros k. rewrite T12, T11, T10, T9, T8, T7, T6, T5, T4, T3, T2, T1, Q1.
    destruct k; cbn [skey_dec skey_rect skey_rec];
    repeat match goal with |- context [if skey_dec ?a ?b then _ else _] =>
      destruct (skey_dec a b) as [?|?]; [try discriminate|try congruence] end;
    rewrite ?T11, ?T10, ?T9, ?T8, ?T7, ?T6, ?T5, ?T4, ?T3, ?T2, ?T1, ?Q1;
    repeat match goal with |- context [if skey_dec ?a ?b then _ else _] =>
      destruct (skey_dec a b) as [?|?]; [try discriminate|try congruence] end;
    rewrite ?(same_mergeable _ _ _ S0), ?(same_mergeable _ _ _ L1), ?(same_mergeable _ _ _ L3), ?(same_mergeable _ _ _ L6),
      ?(same_mergeable _ _ _ L7), ?(same_mergeable _ _ _ L8), ?(same_mergeable _ _ _ L9), ?(same_mergeable _ _ _ L10),
      ?(same_mergeable _ _ _ L11); reflexivity. }
  assert (FD : forall k, p_dbl t12 k = match k with
       | k_datamin | k_datamax => p_dbl this k
       | _ => match p_dbl p k, p_dbl this k with
              | Some f, None => if negb (is_nan f) && is_mergeable this (KD k) then Some f else None
              | _, x => x
              end end).
  { intros k. rewrite D12, D11, D10, D9, D8, D7, D6.
    destruct k;
    repeat match goal with |- context [if dkey_dec ?a ?b then _ else _] =>
      destruct (dkey_dec a b) as [?|?]; [try discriminate|try congruence] end;
    rewrite ?D5; repeat match goal with |- context [if dkey_dec ?a ?b then _ else _] =>
      destruct (dkey_dec a b) as [?|?]; [try discriminate|try congruence] end;
    rewrite ?D4, ?D3; repeat match goal with |- context [if dkey_dec ?a ?b then _ else _] =>
      destruct (dkey_dec a b) as [?|?]; [try discriminate|try congruence] end;
    rewrite ?D2, ?D1, ?Q2, ?(same_mergeable _ _ _ L2), ?(same_mergeable _ _ _ L4), ?(same_mergeable _ _ _ L5); reflexivity. }
  assert (FBl : p_blank t12 = match p_blank p, p_blank this with
                | Some f, None => if is_mergeable this KBlank then Some f else None
                | _, x => x end).
  { rewrite FA, A2, A1, Q3, (same_mergeable _ _ _ L1). reflexivity. }
  rewrite (same_mergeable _ _ KComment L12).
  destruct (is_mergeable this KComment) eqn:MC.
  - assert (L13 : same_locks this (put_comments t12 (p_comments t12 ++ p_comments p))) by exact L12.
    rewrite (same_mergeable _ _ KXComment L13).
    destruct (is_mergeable this KXComment) eqn:MX; do 2 eexists; (split; [reflexivity|]);
    (split; [exact L12|]); cbn; rewrite ?FB, ?FC, ?FX, ?FBl; auto 10.
  - rewrite (same_mergeable _ _ KXComment L12).
    destruct (is_mergeable this KXComment) eqn:MX; do 2 eexists; (split; [reflexivity|]);
    (split; [exact L12|]); cbn; rewrite ?FB, ?FC, ?FX, ?FBl; auto 10.
Qed.

(** ** Many merges *)
Lemma first_app {A T} (f : A -> option T) l x :
  first_of f (l ++ [x]) = match first_of f l with Some t => Some t | None => f x end.
Proof. induction l as [|y l IH]; cbn; [destruct (f x); reflexivity|]. rewrite IH. destruct (f y); reflexivity. Qed.
Lemma first_some {A T} (f : A -> option T) l t : first_of f l = Some t -> exists x, f x = Some t.
Proof.
  induction l as [|y l IH]; cbn; [discriminate|]. destruct (f y) as [u|] eqn:E; [|exact IH].
  intros H. injection H as <-. eauto.
Qed.
Lemma first_none {A T} (f : A -> option T) l : (forall x, f x = None) -> first_of f l = None.
Proof. intros H. induction l as [|y l IH]; cbn; [reflexivity|]. now rewrite H. Qed.

Lemma usable_str_nonempty k l s : usable_str k l = Some s -> String.eqb s "" = false.
Proof.
  unfold usable_str. destruct (last_of _ l) as [[|c t]|]; try discriminate. intros H. injection H as <-. reflexivity.
Qed.
Lemma last_bitpix l n : last_of bitpix_of l = Some n -> n <> 0 /\ valid_bitpix n = true.
Proof.
  revert n. induction l as [|x l IH] using rev_ind; intros m; [discriminate|].
  rewrite last_app. destruct (bitpix_of x) as [t|] eqn:E; [|apply IH].
  intros H. injection H as ->. destruct x; try discriminate. cbn -[in_dec] in E.
  destruct (in_dec Z.eq_dec n [8; 16; 32; 64; -32; -64]) as [I|I]; [|discriminate]. injection E as <-.
  split; [|now apply valid_in]. simpl in I. lia.
Qed.

(** The state of the user's parameters while planes are merged into them. *)
Record merged (user : list setting) (planes : list (list setting)) (u : params) : Prop := Merged {
  m_res : resolved user planes u;
  m_plane : p_plane u = 0;
  m_lstr : forall k, p_locked u (KS k) = match last_of (str_of k) user with Some _ => true | None => false end;
  m_ldbl : forall k, p_locked u (KD k) = match last_of (dbl_of k) user with Some _ => true | None => false end;
  m_lblank : p_locked u KBlank = match last_of blank_of user with Some _ => true | None => false end;
  m_lc : p_locked u KComment = match comments_of user with [] => false | _ => true end;
  m_lx : p_locked u KXComment = match xcomments_of user with [] => false | _ => true end }.

Lemma merged_start user u : given 0 user u -> merged user [] u.
Proof.
  intros G. constructor; [|eapply g_plane; eassumption|intros; apply (g_lstr _ _ _ G); reflexivity|
    intros; apply (g_ldbl _ _ _ G); reflexivity|apply (g_lblank _ _ _ G); reflexivity|
    apply (g_lc _ _ _ G); reflexivity|apply (g_lx _ _ _ G); reflexivity].
  repeat split; intros; cbn.
  - apply (g_str _ _ _ G).
  - apply (g_dbl _ _ _ G).
  - apply (g_blank _ _ _ G).
  - apply (g_bitpix _ _ _ G).
  - rewrite (g_comments _ _ _ G). destruct (comments_of user); reflexivity.
  - rewrite (g_xcomments _ _ _ G). destruct (xcomments_of user); reflexivity.
Qed.

Lemma flat_map_one {A B} (f : A -> list B) l x : flat_map f (l ++ [x]) = flat_map f l ++ f x.
Proof. rewrite flat_map_app. cbn. now rewrite app_nil_r. Qed.

Lemma merged_step user planes u n l p : merged user planes u -> given n l p ->
  exists t p', merge u p = Ok (t, p') /\ merged user (planes ++ [l]) t.
Proof.
  intros M G.
  destruct (merge_spec u p (given_bitpix _ _ _ G)) as (t & p' & E & [Sp Sl] & B & S & D & Bl & C & X).
  exists t, p'. split; [exact E|].
  destruct M as [(RS & RD & RB & RN & RC & RX) Mp Ms Md Mb Mc Mx].
  assert (U : user_supplied u = true) by (unfold user_supplied; rewrite Mp; reflexivity).
  assert (IM : forall k, is_mergeable u k = negb (p_locked u k))
    by (intros k; unfold is_mergeable; rewrite U; apply orb_false_r).
  constructor; [|congruence|intros; rewrite Sl; apply Ms|intros; rewrite Sl; apply Md|rewrite Sl; exact Mb|
    rewrite Sl; exact Mc|rewrite Sl; exact Mx].
  split; [|split; [|split; [|split; [|split]]]].
  - intros k. rewrite S, IM, Ms, RS, first_app, (g_str _ _ _ G).
    destruct (last_of (str_of k) user) as [s|]; cbn [negb andb]; [reflexivity|].
    destruct (first_of (usable_str k) planes) as [s|] eqn:Ef.
    + apply first_some in Ef. destruct Ef as [x Ef]. apply usable_str_nonempty in Ef. now rewrite Ef.
    + cbn [String.eqb]. unfold usable_str. destruct (last_of (str_of k) l) as [[|c s]|]; reflexivity.
  - intros k. rewrite D, IM, Md, RD, first_app, (g_dbl _ _ _ G).
    destruct (last_of (dbl_of k) user) as [d|]; cbn [negb].
    + destruct (last_of (dbl_of k) l) as [[f|]|]; destruct k, d; rewrite ?andb_false_r; reflexivity.
    + destruct (first_of (usable_dbl k) planes) as [d|] eqn:Ef.
      * destruct (last_of (dbl_of k) l) as [[f|]|]; destruct k; try reflexivity.
        all: apply first_some in Ef; destruct Ef as [x Ef]; discriminate Ef.
      * unfold usable_dbl. destruct (last_of (dbl_of k) l) as [[f|]|] eqn:El; destruct k; rewrite ?andb_true_r, ?El;
        try reflexivity; destruct (is_nan f); reflexivity.
  - rewrite Bl, IM, Mb, RB, first_app, (g_blank _ _ _ G).
    destruct (last_of blank_of user) as [[b|]|]; cbn [negb].
    + destruct (last_of blank_of l) as [[f|]|]; reflexivity.
    + destruct (last_of blank_of l) as [[f|]|]; reflexivity.
    + destruct (first_of usable_blank planes); unfold usable_blank; destruct (last_of blank_of l) as [[f|]|]; reflexivity.
  - rewrite B, RN, first_app, (g_bitpix _ _ _ G), U. cbn [negb]. rewrite orb_false_r.
    destruct (last_of bitpix_of user) as [b|] eqn:Eu.
    + apply last_bitpix in Eu. destruct Eu as [Eu _]. apply Z.eqb_neq in Eu. rewrite Eu, andb_false_r. reflexivity.
    + destruct (first_of (last_of bitpix_of) planes) as [b|] eqn:Ef.
      * apply first_some in Ef. destruct Ef as [x Ef]. apply last_bitpix in Ef. destruct Ef as [Ef _].
        apply Z.eqb_neq in Ef. rewrite Ef, andb_false_r. reflexivity.
      * rewrite Z.eqb_refl, andb_true_r. cbn [orb].
        destruct (last_of bitpix_of l) as [b|] eqn:El; [|reflexivity].
        apply last_bitpix in El. destruct El as [El _]. apply Z.eqb_neq in El. rewrite El. reflexivity.
  - rewrite C, IM, Mc, RC, flat_map_one, (g_comments _ _ _ G). destruct (comments_of user); reflexivity.
  - rewrite X, IM, Mx, RX, flat_map_one, (g_xcomments _ _ _ G). destruct (xcomments_of user); reflexivity.
Qed.

Lemma merge_all_merged user planes : Forall (fun x => 0 <= fst x) planes -> forall done u, merged user done u ->
  exists r, merge_all u planes = Ok r /\ merged user (done ++ map snd planes) r.
Proof.
  induction 1 as [|[n l] planes N F IH]; intros done u M; cbn [merge_all map].
  - exists u. rewrite app_nil_r. auto.
  - destruct (supplied_given n l N) as (p & -> & G). cbn [bind snd].
    destruct (merged_step _ _ _ _ _ _ M G) as (t & p' & -> & M'). cbn [bind].
    destruct (IH _ _ M') as (r & E & R). exists r. split; [exact E|].
    now rewrite <- app_assoc in R.
Qed.

Theorem merges_resolve user planes : Forall (fun x => 0 <= fst x) planes ->
  exists r, bind (supplied 0 user) (fun u => merge_all u planes) = Ok r /\ resolved user (map snd planes) r.
Proof.
  intros F. destruct (supplied_given 0 user ltac:(lia)) as (u & -> & G). cbn [bind].
  destruct (merge_all_merged user planes F [] u (merged_start _ _ G)) as (r & E & M).
  exists r. split; [exact E|]. apply (m_res _ _ _ M).
Qed.

(** ** The whole command *)
Lemma populate_photo_settings h p : standard h ->
  populate_photo h p = Ok (fold_left (fun p x => give x p) (photo_settings h) p).
Proof.
  intros S. unfold populate_photo, photo_settings, standard in *. cbn [fold_left give].
  unfold set_bitpix. apply valid_in in S. now rewrite S.
Qed.
Lemma populate_settings s p : standard_source s ->
  populate s p = Ok (fold_left (fun p x => give x p) (source_settings s) p).
Proof.
  destruct s as [h|hs| |]; cbn [standard_source populate source_settings]; intros S; try reflexivity.
  - now apply populate_photo_settings.
  - revert p. induction S as [|h hs S F IH]; intros p; [reflexivity|]. cbn [populate_mosaic].
    rewrite populate_photo_settings by exact S. cbn [bind]. rewrite IH. cbn [flat_map]. now rewrite fold_left_app.
Qed.
Lemma populate_planes_merged sources : Forall standard_source sources -> forall n done u, 0 <= n -> merged [] done u ->
  exists r, populate_planes n sources u = Ok r /\ merged [] (done ++ map source_settings sources) r.
Proof.
  induction 1 as [|s sources S F IH]; intros n done u N M; cbn [populate_planes map].
  - exists u. rewrite app_nil_r. auto.
  - destruct (supplied_given n (source_settings s) N) as (p & E & G).
    unfold supplied in E. destruct (params_new n) as [p0| |] eqn:E0; cbn [bind] in *; try discriminate.
    rewrite (populate_settings s p0 S). injection E as ->. cbn [bind].
    destruct (merged_step _ _ _ _ _ _ M G) as (t & p' & -> & M'). cbn [bind].
    destruct (IH (n + 1) _ _ ltac:(lia) M') as (r & E & R). exists r. split; [exact E|].
    now rewrite <- app_assoc in R.
Qed.

Theorem command_resolves user sources : Forall standard_source sources ->
  exists r, bind (supplied 0 user) (populate_map_parameters sources) = Ok r /\
    resolved user (map source_settings sources) r.
Proof.
  intros F. destruct (supplied_given 0 user ltac:(lia)) as (u & -> & G). cbn [bind].
  unfold populate_map_parameters.
  destruct (params_new 0) as [w| |] eqn:E0; [|discriminate|discriminate]. cbn [bind].
  destruct (populate_planes_merged sources F 1 [] w ltac:(lia) (merged_start _ _ (given_new _ _ E0))) as (q & -> & M).
  cbn [bind]. rewrite app_nil_l in M. set (planes := map source_settings sources) in *. clearbody planes.
  destruct M as [(RS & RD & RB & RN & RC & RX) _ _ _ _ _ _]. cbn in RS, RD, RB, RN, RC, RX.
  assert (V : p_bitpix q = 0 \/ valid_bitpix (p_bitpix q) = true).
  { rewrite RN. destruct (first_of (last_of bitpix_of) planes) as [b|] eqn:Ef; [|auto].
    apply first_some in Ef. destruct Ef as [x Ef]. apply last_bitpix in Ef. tauto. }
  destruct (merge_spec u q V) as (t & p' & -> & [Sp Sl] & B & S & D & Bl & C & X). cbn [bind].
  exists t. split; [reflexivity|].
  assert (U : user_supplied u = true) by (unfold user_supplied; rewrite (g_plane _ _ _ G); reflexivity).
  assert (IM : forall k, is_mergeable u k = negb (p_locked u k))
    by (intros k; unfold is_mergeable; rewrite U; apply orb_false_r).
  split; [|split; [|split; [|split; [|split]]]].
  - intros k. rewrite S, IM, (g_lstr _ _ _ G eq_refl), (g_str _ _ _ G), RS.
    destruct (last_of (str_of k) user); reflexivity.
  - intros k. rewrite D, IM, (g_ldbl _ _ _ G eq_refl), (g_dbl _ _ _ G), RD.
    destruct (last_of (dbl_of k) user) as [d|]; cbn [negb].
    + destruct (first_of (usable_dbl k) planes); destruct k, d; rewrite ?andb_false_r; reflexivity.
    + destruct (first_of (usable_dbl k) planes) as [f|] eqn:Ef; [|destruct k; reflexivity].
      apply first_some in Ef. destruct Ef as [x Ef]. unfold usable_dbl in Ef.
      destruct (last_of (dbl_of k) x) as [[g|]|] eqn:El; destruct k; rewrite ?El in Ef; try discriminate;
      destruct (is_nan g) eqn:Ng; try discriminate; injection Ef as ->; rewrite Ng; reflexivity.
  - rewrite Bl, IM, (g_lblank _ _ _ G eq_refl), (g_blank _ _ _ G), RB.
    destruct (last_of blank_of user) as [[b|]|]; destruct (first_of usable_blank planes); reflexivity.
  - rewrite B, (g_bitpix _ _ _ G), RN, U. cbn [negb]. rewrite orb_false_r.
    destruct (last_of bitpix_of user) as [b|] eqn:Eu.
    + apply last_bitpix in Eu. destruct Eu as [Eu _]. apply Z.eqb_neq in Eu. rewrite Eu, andb_false_r. reflexivity.
    + rewrite Z.eqb_refl, andb_true_r. cbn [orb].
      destruct (first_of (last_of bitpix_of) planes) as [b|] eqn:El; [|reflexivity].
      apply first_some in El. destruct El as [x El]. apply last_bitpix in El. destruct El as [El _].
      apply Z.eqb_neq in El. rewrite El. reflexivity.
  - rewrite C, IM, (g_lc _ _ _ G eq_refl), (g_comments _ _ _ G), RC.
    destruct (comments_of user); reflexivity.
  - rewrite X, IM, (g_lx _ _ _ G eq_refl), (g_xcomments _ _ _ G), RX.
    destruct (xcomments_of user); reflexivity.
Qed.

(** ** C59 *)
(** The chosen type of a map of photos. *)
Lemma command_bitpix user h hs : last_of bitpix_of user = None -> Forall standard (h :: hs) ->
  exists r, bind (supplied 0 user) (populate_map_parameters (map photo (h :: hs))) = Ok r /\ p_bitpix r = h_bitpix h.
Proof.
  intros N F.
  assert (F' : Forall standard_source (map photo (h :: hs))).
  { apply Forall_forall. intros s Hs. apply in_map_iff in Hs. destruct Hs as (g & <- & Hg).
    now apply (proj1 (Forall_forall _ _) F). }
  destruct (command_resolves user _ F') as (r & E & _ & _ & _ & B & _). exists r. split; [exact E|].
  rewrite B, N. cbn [map first_of source_settings].
  assert (S : standard h) by now inversion F.
  assert (Q : last_of bitpix_of (photo_settings h) = Some (h_bitpix h)).
  { unfold photo_settings, last_of. cbn -[in_dec].
    destruct (in_dec Z.eq_dec (h_bitpix h) [8; 16; 32; 64; -32; -64]); [reflexivity|contradiction]. }
  now rewrite Q.
Qed.

(** The rule itself, for parameters that are not the user's. *)
Theorem rule_widest n l m k : 0 < n -> 0 <= m ->
  forall a b, last_of bitpix_of l = Some a -> last_of bitpix_of k = Some b -> (0 < a <-> 0 < b) ->
  exists r, bind (supplied n l) (fun t => bind (supplied m k) (fun p => bind (merge t p) (fun '(t, _) => Ok t))) = Ok r /\
    holds (p_bitpix r) a /\ holds (p_bitpix r) b /\ (p_bitpix r = a \/ p_bitpix r = b).
Proof.
  intros N M a b A B Q.
  destruct (supplied_given n l ltac:(lia)) as (t & -> & G). destruct (supplied_given m k M) as (p & -> & G').
  cbn [bind].
  destruct (merge_spec t p (given_bitpix _ _ _ G')) as (r & p' & -> & _ & Br & _). cbn [bind].
  exists r. split; [reflexivity|]. rewrite Br, (g_bitpix _ _ _ G), (g_bitpix _ _ _ G'), A, B.
  apply last_bitpix in A, B. destruct A as [A _], B as [B _].
  assert (U : user_supplied t = false) by (unfold user_supplied; rewrite (g_plane _ _ _ G); apply Z.eqb_neq; lia).
  rewrite U. cbn [negb]. rewrite orb_true_r, andb_true_r. apply Z.eqb_neq in A, B. rewrite A, B. cbn [negb orb].
  apply Z.eqb_neq in A, B. unfold holds.
  destruct (Z.ltb_spec 0 b), (Z.ltb_spec a b), (Z.ltb_spec b 0), (Z.ltb_spec b a); cbn [andb orb]; lia.
Qed.

Definition plain (b : Z) : header := Header (fun _ => EmptyString) b None None.

Theorem first_plane_wins_refuted :
  exists a b, standard a /\ standard b /\
    (exists r, bind (supplied 0 []) (populate_map_parameters [photo a; photo b]) = Ok r /\ ~ holds (p_bitpix r) (h_bitpix b)) /\
    (exists r r', bind (supplied 0 []) (populate_map_parameters [photo a; photo b]) = Ok r /\
       bind (supplied 0 []) (populate_map_parameters [photo b; photo a]) = Ok r' /\ p_bitpix r <> p_bitpix r') /\
    (exists r, bind (supplied 0 []) (populate_map_parameters [mosaic [b; a]]) = Ok r /\ ~ holds (p_bitpix r) (h_bitpix b)).
Proof.
  assert (A : standard (plain 8)) by (unfold standard; simpl; tauto).
  assert (B : standard (plain 16)) by (unfold standard; simpl; tauto).
  exists (plain 8), (plain 16). split; [exact A|]. split; [exact B|].
  destruct (command_bitpix [] (plain 8) [plain 16] eq_refl ltac:(repeat constructor; assumption)) as (r & E & R).
  destruct (command_bitpix [] (plain 16) [plain 8] eq_refl ltac:(repeat constructor; assumption)) as (r' & E' & R').
  cbn [map] in E, E'. cbn [plain h_bitpix] in R, R'.
  split; [|split].
  - exists r. split; [exact E|]. rewrite R. unfold holds. cbn. lia.
  - exists r, r'. split; [exact E|]. split; [exact E'|]. rewrite R, R'. lia.
  - destruct (command_resolves [] [mosaic [plain 16; plain 8]]) as (q & Eq & _ & _ & _ & Bq & _).
    { repeat constructor; assumption. }
    exists q. split; [exact Eq|]. replace (p_bitpix q) with 8 by (rewrite Bq; reflexivity). unfold holds. cbn. lia.
Qed.

Theorem agreeing_photos user b h hs : last_of bitpix_of user = None ->
  In b [8; 16; 32; 64; -32; -64] -> Forall (fun g => h_bitpix g = b) (h :: hs) ->
  exists r, bind (supplied 0 user) (populate_map_parameters (map photo (h :: hs))) = Ok r /\
    get_bitpix r = Ok b /\ Forall (fun g => holds b (h_bitpix g)) (h :: hs).
Proof.
  intros N B F.
  destruct (command_bitpix user h hs N) as (r & E & R).
  { eapply Forall_impl; [|exact F]. intros g Hg. unfold standard. rewrite Hg. exact B. }
  exists r. split; [exact E|]. rewrite (Forall_inv F) in R. split.
  - unfold get_bitpix. rewrite R. apply valid_in in B. now rewrite B.
  - eapply Forall_impl; [|exact F]. cbn beta. intros g Hg. rewrite Hg. unfold holds. simpl in B. lia.
Qed.
