(** Layouts are scanned as what they are layouts of. *)
From Coq Require Import List ZArith Bool Ascii String Lia.
From Flocq Require Import BinarySingleNaN.
From Verif Require Import Base Flt Num Entry_Model Expr_Model Expr_Spec Expr_Proofs Parse_Model Text_Model Text_Spec.
Import ListNotations.
Open Scope nat_scope.

(** ** Rules *)

Lemma best_app a b s best : best_rule (a ++ b) s best = best_rule b s (best_rule a s best).
Proof. revert best. induction a as [|[f x] a IH]; intros best; cbn [app best_rule]; auto. Qed.
Lemma best_small rs s best : Forall (fun r => fst r s <= fst best) rs -> best_rule rs s best = best.
Proof.
  induction 1 as [|[f a] rs H _ IH]; [reflexivity|]. cbn [best_rule fst] in *.
  destruct (Nat.ltb_spec (fst best) (f s)); [lia|exact IH].
Qed.
Lemma best_below rs s n : forall best, fst best < n -> Forall (fun r => fst r s < n) rs -> fst (best_rule rs s best) < n.
Proof.
  induction rs as [|[f a] rs IH]; intros best B F; [exact B|]. inversion F; subst. cbn [best_rule fst] in *.
  apply IH; [|assumption]. destruct (Nat.ltb_spec (fst best) (f s)); cbn [fst]; lia.
Qed.
Lemma best_grows rs s : forall best, fst best <= fst (best_rule rs s best).
Proof.
  induction rs as [|[f a] rs IH]; intros best; [cbn; lia|]. cbn [best_rule].
  destruct (Nat.ltb_spec (fst best) (f s)); [|apply IH]. specialize (IH (f s, a)). cbn [fst] in IH. lia.
Qed.
Lemma best_some rs s : forall best r, In r rs -> fst r s <= fst (best_rule rs s best).
Proof.
  induction rs as [|[f a] rs IH]; intros best r I; [contradiction|]. cbn [best_rule]. destruct I as [<-|I]; [|apply IH, I].
  cbn [fst]. destruct (Nat.ltb_spec (fst best) (f s)).
  - pose proof (best_grows rs s (f s, a)) as G. cbn [fst] in G. lia.
  - pose proof (best_grows rs s best). lia.
Qed.
(** A rule in the middle: longer than the ones before, not shorter than those after. *)
Lemma best_at pre f a post s n best :
  fst best < n -> f s = n -> Forall (fun r => fst r s < n) pre -> Forall (fun r => fst r s <= n) post ->
  best_rule (pre ++ (f, a) :: post) s best = (n, a).
Proof.
  intros B E P Q. rewrite best_app. cbn [best_rule]. pose proof (best_below pre s n best B P) as L.
  rewrite E. rewrite (proj2 (Nat.ltb_lt _ _) L). apply best_small. exact Q.
Qed.

(** ** Loop *)

Lemma match_at_progress s : s <> [] -> 1 <= fst (match_at s).
Proof.
  intro N. unfold match_at.
  assert (G : forall rs best, fst best <= fst (longest rs s best)).
  { induction rs as [|[f a] rs IH]; intros best; [cbn; lia|]. cbn [longest].
    destruct (Nat.ltb_spec (fst best) (f s)); [|apply IH]. specialize (IH (f s, a)). cbn [fst] in IH. lia. }
  change rules with (firstn 24 rules ++ skipn 24 rules). rewrite longest_app.
  change (skipn 24 rules) with [(one (fun c => negb (is_newline c)), Leave TUnmatched); (one is_newline, EndOfLine)].
  set (b := longest (firstn 24 rules) s (0, EndOfLine)). clearbody b. destruct s as [|c s]; [congruence|].
  cbn [longest one]. destruct b as [k x]. cbn [fst]. destruct (is_newline c); cbn [negb].
  - destruct k as [|k]; cbn; [lia|lia].
  - destruct k as [|k]; cbn; lia.
Qed.
Lemma flex_progress m s : s <> [] -> m <> in_comment -> 1 <= fst (flex m s).
Proof.
  intros N M.
  assert (B : 1 <= fst (best_rule (own_rules m ++ shared_rules) s (0, fun _ => ([], None)))).
  { destruct s as [|c s]; [congruence|]. unfold shared_rules. destruct (is_newline c) eqn:E.
    - pose proof (best_some (own_rules m ++ shared_rules) (c :: s) (0, fun _ => ([], None))
        (span is_space, fun _ => ([], None))) as B. cbn [fst span] in B. unfold is_space in B. rewrite E, orb_true_r in B.
      etransitivity; [|apply B]; [lia|]. apply in_app_iff. right. unfold shared_rules. right. apply in_app_iff. right. cbn. auto.
    - pose proof (best_some (own_rules m ++ shared_rules) (c :: s) (0, fun _ => ([], None))
        (one (fun c => negb (is_newline c)), fun _ => ([KEY "text"], None))) as B. cbn [fst one] in B. rewrite E in B.
      cbn [negb] in B. apply B. apply in_app_iff. right. unfold shared_rules. right. apply in_app_iff. right. cbn. auto. }
  unfold flex. destruct m; try congruence;
    try (destruct (best_rule _ _ _) as [n f] eqn:E; cbn [fst] in *; exact B).
  pose proof (match_at_progress s N) as P. destruct (match_at s) as [n a]. exact P.
Qed.

Definition need (m : start) (s : text) : nat :=
  2 * List.length s + match m with in_comment => 1 | _ => 0 end.
Definition after (m : start) (b : option start) : start := match b with Some m' => m' | None => m end.
Lemma need_less m s n ts b : s <> [] -> flex m s = (n, (ts, b)) -> need (after m b) (skipn n s) < need m s.
Proof.
  intros N E. unfold need. rewrite skipn_length.
  assert (L : 1 <= List.length s) by (destruct s; [congruence|cbn; lia]).
  assert (D : m = in_comment \/ m <> in_comment) by (destruct m; auto; right; discriminate). destruct D as [->|D].
  - cbn [flex] in E. injection E as <- <- <-. cbn [after]. lia.
  - pose proof (flex_progress m s N D) as P. rewrite E in P. cbn [fst] in P.
    destruct (after m b); destruct m; lia.
Qed.
Definition toks (m : start) (s : text) : list tok := scan_file (need m s) m s.
Lemma enough : forall k m s f, need m s <= k -> need m s <= f -> scan_file f m s = scan_file k m s.
Proof.
  induction k as [|k IH]; intros m s f K F.
  - destruct s as [|c s]; [|unfold need in K; cbn in K; lia]. destruct f; reflexivity.
  - destruct f as [|f]; [destruct s as [|c s]; [reflexivity|unfold need in F; cbn in F; lia]|].
    cbn [scan_file]. destruct s as [|c s]; [reflexivity|]. destruct (flex m (c :: s)) as [n [ts b]] eqn:E.
    f_equal. pose proof (need_less m (c :: s) n ts b ltac:(discriminate) E) as L. apply (IH (after m b)); unfold after in *; lia.
Qed.
Lemma toks_nil m : toks m [] = [].
Proof. unfold toks. destruct (need m []); reflexivity. Qed.
Lemma toks_step m s n ts b : s <> [] -> flex m s = (n, (ts, b)) -> toks m s = ts ++ toks (after m b) (skipn n s).
Proof.
  intros N E. pose proof (need_less m s n ts b N E) as L. unfold toks at 1. destruct (need m s) as [|k] eqn:K; [lia|].
  cbn [scan_file]. destruct s as [|c s]; [congruence|]. rewrite E. f_equal. unfold toks.
  symmetry. apply enough; unfold after in *; lia.
Qed.
Lemma toks_cons m c s n ts b : flex m (c :: s) = (n, (ts, b)) -> toks m (c :: s) = ts ++ toks (after m b) (skipn n (c :: s)).
Proof. apply toks_step. discriminate. Qed.
Lemma file_toks s : file_tokens s = toks INITIAL s.
Proof. unfold file_tokens, toks, need. now rewrite Nat.add_0_r. Qed.

(** ** Words *)

Lemma upper_word c : word_char (upper c) = word_char c.
Proof. destruct c as [[] [] [] [] [] [] [] []]; vm_compute; reflexivity. Qed.
Lemma literal_inv p : forall s n, literal_len p s = S n -> List.length p = S n /\ map upper (firstn (S n) s) = p.
Proof.
  induction p as [|x p IH]; intros s n E; [discriminate|]. destruct s as [|c s]; [discriminate|].
  cbn [literal_len] in E. destruct (Ascii.eqb_spec (upper c) x) as [U|]; [|discriminate].
  destruct p as [|y p].
  - injection E as <-. cbn. now rewrite U.
  - destruct (literal_len (y :: p) s) as [|k] eqn:L; [discriminate|]. injection E as <-. destruct (IH s k L) as [A B].
    split; [cbn in *; lia|]. cbn [firstn map]. rewrite U. f_equal. exact B.
Qed.
Lemma literal_whole p : forall w s, p <> [] -> map upper w = p -> literal_len p (w ++ s) = List.length w.
Proof.
  induction p as [|x p IH]; intros w s N E; [congruence|]. destruct w as [|c w]; [discriminate|]. injection E as U E.
  cbn [literal_len app]. rewrite U, Ascii.eqb_refl. destruct p as [|y p].
  - destruct w; [reflexivity|discriminate].
  - rewrite (IH w s ltac:(discriminate) E). cbn. destruct w; [discriminate|reflexivity].
Qed.
Lemma literal_none p c s : p <> [] -> hd " "%char p <> upper c -> literal_len p (c :: s) = 0.
Proof.
  intros N H. destruct p as [|x p]; [congruence|]. cbn in *. destruct (Ascii.eqb_spec (upper c) x); [congruence|reflexivity].
Qed.
(** A pattern of characters of a class is not longer than the characters of the
    class that are there. *)
Lemma literal_class (f : ascii -> bool) p w s : (forall c, f (upper c) = f c) -> forallb f p = true ->
  match s with [] => True | c :: _ => f c = false end -> literal_len p (w ++ s) <= List.length w.
Proof.
  intros U P Fs. destruct (literal_len p (w ++ s)) as [|n] eqn:E; [lia|].
  apply literal_inv in E. destruct E as [L M]. destruct (le_lt_dec (S n) (List.length w)) as [H|H]; [lia|].
  exfalso. rewrite firstn_app, map_app in M. destruct s as [|c s].
  - rewrite firstn_nil, app_nil_r in M. rewrite <- M in L. rewrite map_length, firstn_length in L. lia.
  - destruct (S n - List.length w) as [|k] eqn:K; [lia|]. cbn [firstn map] in M. rewrite <- M, forallb_app in P.
    cbn [forallb] in P. rewrite U, Fs in P. rewrite andb_false_r in P. discriminate.
Qed.
Lemma literal_same p w s : word_ends s -> forallb word_char p = true -> w <> [] ->
  literal_len p (w ++ s) <= List.length w /\ (literal_len p (w ++ s) = List.length w -> map upper w = p).
Proof.
  intros Fs P N. split; [apply (literal_class word_char); auto using upper_word|].
  intro E. destruct w as [|c w]; [congruence|]. cbn [List.length] in E. apply literal_inv in E. destruct E as [_ M].
  change (S (List.length w)) with (List.length (c :: w)) in M. rewrite firstn_len in M. exact M.
Qed.

Definition pattern (k : keyword) : string := fst (fst k).
Lemma keywords_words : forallb (fun k => forallb word_char (chars (pattern k)) && negb (Nat.eqb (List.length (chars (pattern k))) 0)) keywords = true.
Proof. vm_compute. reflexivity. Qed.
Lemma keywords_alpha : forallb (fun k => match chars (pattern k) with c :: _ => is_alpha c | [] => false end) keywords = true.
Proof. vm_compute. reflexivity. Qed.
Lemma keywords_once : NoDup (map pattern keywords).
Proof.
  assert (H : forall l : list string, (fix check l := match l with [] => true | x :: l => negb (existsb (String.eqb x) l) && check l end) l = true -> NoDup l).
  { induction l as [|x l IH]; intro H; constructor; apply andb_true_iff in H; destruct H as [H1 H2].
    - intro I. apply negb_true_iff in H1. assert (existsb (String.eqb x) l = true); [|congruence].
      apply existsb_exists. exists x. split; [exact I|apply String.eqb_refl].
    - apply IH, H2. }
  apply H. vm_compute. reflexivity.
Qed.
Lemma chars_inj a b : chars a = chars b -> a = b.
Proof. intro H. rewrite <- (string_of_list_ascii_of_string a), <- (string_of_list_ascii_of_string b). unfold chars in H. now rewrite H. Qed.

Lemma flex_best m s n f : m <> in_comment -> m <> in_expression ->
  best_rule (own_rules m ++ shared_rules) s (0, fun _ => ([], None)) = (n, f) -> flex m s = (n, f (firstn n s)).
Proof. intros A B E. unfold flex. destruct m; try congruence; rewrite E; reflexivity. Qed.

Lemma no_keyword c s : is_alpha c = false -> Forall (fun r => fst r (c :: s) = 0) (map word_rule keywords).
Proof.
  intro A. apply Forall_forall. intros r I. apply in_map_iff in I. destruct I as ([[p t] b] & <- & I). cbn [word_rule fst].
  pose proof keywords_alpha as K. rewrite forallb_forall in K. specialize (K _ I). cbn [pattern fst] in K.
  destruct (chars p) as [|x q]; [discriminate|]. apply literal_none; [discriminate|]. cbn. intros ->.
  assert (U : is_alpha (upper c) = is_alpha c) by (destruct c as [[] [] [] [] [] [] [] []]; vm_compute; reflexivity). congruence.
Qed.

Lemma flex_keyword p t b w s : In (p, t, b) keywords -> in_any_case p w -> word_ends s ->
  flex INITIAL (w ++ s) = (List.length w, ([KEY t], b)).
Proof.
  intros I W Fs. apply (flex_best INITIAL _ (List.length w) (fun _ => ([KEY t], b))); try discriminate.
  pose proof keywords_words as KW. rewrite forallb_forall in KW.
  assert (NP : chars p <> []).
  { specialize (KW _ I). apply andb_true_iff in KW. destruct KW as [_ K]. cbn [pattern fst] in K. intro E. rewrite E in K. discriminate. }
  assert (NW : w <> []). { intros ->. unfold in_any_case in W. cbn in W. congruence. }
  assert (AL : exists c w', w = c :: w' /\ is_alpha c = true).
  { pose proof keywords_alpha as K. rewrite forallb_forall in K. specialize (K _ I). cbn [pattern fst] in K.
    destruct w as [|c w']; [congruence|]. exists c, w'. split; [reflexivity|]. unfold in_any_case in W. rewrite <- W in K. cbn in K.
    assert (U : is_alpha (upper c) = is_alpha c) by (destruct c as [[] [] [] [] [] [] [] []]; vm_compute; reflexivity). congruence. }
  destruct AL as (c & w' & EW & AL).
  destruct (in_split _ _ I) as (pre & post & E). pose proof keywords_once as O. rewrite E, map_app in O. cbn [map] in O.
  apply NoDup_remove_2 in O. rewrite in_app_iff in O.
  assert (LE : forall k, In k keywords -> fst (word_rule k) (w ++ s) <= List.length w /\
                (pattern k <> p -> fst (word_rule k) (w ++ s) < List.length w)).
  { intros [[q u] v] K. cbn [word_rule fst pattern]. specialize (KW _ K). apply andb_true_iff in KW. destruct KW as [KW _].
    cbn [pattern fst] in KW. destruct (literal_same (chars q) w s Fs KW NW) as [L M]. split; [exact L|]. intro D.
    destruct (Nat.eq_dec (literal_len (chars q) (w ++ s)) (List.length w)) as [X|X]; [|lia].
    exfalso. apply D, chars_inj. rewrite <- (M X). exact W. }
  assert (NC : Ascii.eqb ":" c = false /\ Ascii.eqb "#" c = false /\ is_space c = false).
  { destruct c as [[] [] [] [] [] [] [] []]; vm_compute in AL |- *; try discriminate AL; auto. }
  destruct NC as (C1 & C2 & C3).
  cbn [own_rules app]. unfold shared_rules. rewrite E, map_app. cbn [map]. rewrite <- app_assoc. cbn [app].
  rewrite app_comm_cons. change (word_rule (p, t, b)) with (literal_len (chars p), fun _ : text => ([KEY t], b)).
  apply best_at.
  - cbn. rewrite EW. cbn. lia.
  - apply literal_whole; [exact NP|exact W].
  - constructor; [rewrite EW; cbn [fst colon one app]; rewrite C1; cbn; lia|]. apply Forall_forall. intros r K. apply in_map_iff in K.
    destruct K as (k & <- & K). apply LE; [rewrite E; apply in_app_iff; auto|]. intro X. apply O. left. change (pattern (p, t, b)) with p. rewrite <- X. apply in_map, K.
  - apply Forall_app. split.
    + apply Forall_forall. intros r K. apply in_map_iff in K. destruct K as (k & <- & K). apply LE. rewrite E. apply in_app_iff. right. right. exact K.
    + rewrite EW. repeat (apply Forall_cons; [|]); [| | |apply Forall_nil]; cbn [fst app one span]; rewrite ?C2, ?C3; try (cbn; lia).
      destruct (negb _); cbn; lia.
Qed.

(** ** White space and comments *)

Definition open_mode (m : start) : Prop := m <> in_comment /\ m <> in_expression.
Lemma space_facts c : is_space c = true ->
  is_alpha c = false /\ is_graph c = false /\ Ascii.eqb ":" c = false /\ Ascii.eqb "#" c = false /\ upper c = c.
Proof. destruct c as [[] [] [] [] [] [] [] []]; vm_compute; intro H; try discriminate H; auto. Qed.
Lemma own_space m c s : is_space c = true -> Forall (fun r => fst r (c :: s) = 0) (own_rules m).
Proof.
  intro H. destruct (space_facts c H) as (A & G & C & _ & U).
  assert (P : forall p, p <> [] -> hd " "%char p <> c -> literal_len p (c :: s) = 0).
  { intros p N X. apply literal_none; [exact N|]. now rewrite U. }
  assert (X : forall d, is_alpha d = true -> d <> c) by congruence.
  destruct m; cbn [own_rules]; repeat (apply Forall_cons; [|]); try apply Forall_nil; cbn [fst colon word_rule one span];
    rewrite ?C, ?G; try reflexivity; apply P; try discriminate; apply X; reflexivity.
Qed.
Lemma flex_space m c s : open_mode m -> is_space c = true ->
  flex m (c :: s) = (span is_space (c :: s), ([], None)).
Proof.
  intros [M1 M2] H. destruct (space_facts c H) as (A & G & C & D & U).
  apply (flex_best m _ (span is_space (c :: s)) (fun _ => ([], None))); [exact M1|exact M2|].
  unfold shared_rules. rewrite app_comm_cons, app_assoc.
  match goal with |- best_rule (?a ++ [?x; ?y; ?z]) _ _ = _ => change (a ++ [x; y; z]) with (a ++ [x] ++ y :: [z]) end.
  rewrite app_assoc. apply best_at.
  - cbn [fst span]. rewrite H. lia.
  - reflexivity.
  - assert (P : 0 < span is_space (c :: s)) by (cbn [span]; rewrite H; lia).
    assert (T : forall rs : list ((text -> nat) * (text -> effect)),
      Forall (fun r => fst r (c :: s) = 0) rs -> Forall (fun r => fst r (c :: s) < span is_space (c :: s)) rs).
    { intro rs. apply Forall_impl. intros r ->. exact P. }
    apply T. rewrite !Forall_app. split; [split|].
    + apply own_space, H.
    + constructor; [cbn [fst colon one]; now rewrite C|]. apply no_keyword, A.
    + constructor; [|constructor]. cbn [fst one]. now rewrite D.
  - constructor; [|constructor]. cbn [fst one]. cbn [span]. rewrite H. destruct (negb _); lia.
Qed.
Lemma toks_space m c s : open_mode m -> is_space c = true -> toks m (c :: s) = toks m s.
Proof.
  intros M H. rewrite (toks_step m (c :: s) _ _ _ ltac:(discriminate) (flex_space m c s M H)). cbn [app after].
  cbn [span]. rewrite H. cbn [skipn]. destruct s as [|d s]; [reflexivity|].
  destruct (is_space d) eqn:D; [|cbn [span]; rewrite D; reflexivity].
  rewrite (toks_step m (d :: s) _ _ _ ltac:(discriminate) (flex_space m d s M D)). reflexivity.
Qed.
Lemma white_space c : is_blank c = true \/ is_newline c = true -> is_space c = true.
Proof. unfold is_space. intros [->| ->]; [reflexivity|apply orb_true_r]. Qed.
Lemma toks_white m g s : open_mode m -> white g -> toks m (g ++ s) = toks m s.
Proof. intros M. induction 1 as [|c g H _ IH]; [reflexivity|]. cbn [app]. rewrite toks_space; auto using white_space. Qed.

Definition comment_mode (m : start) : Prop := open_mode m /\ m <> in_string.
Lemma flex_hash m l s : comment_mode m -> no_newline l -> match s with [] => True | c :: _ => is_newline c = true end ->
  flex m ("#"%char :: l ++ s) = (S (List.length l), ([], None)).
Proof.
  intros [[M1 M2] M3] L Fs.
  assert (SP : span (fun c => negb (is_newline c)) (l ++ s) = List.length l).
  { apply span_app; [revert L; apply Forall_impl; intros c ->; reflexivity|]. destruct s as [|c s]; [exact I|]. now rewrite Fs. }
  apply (flex_best m _ (S (List.length l)) (fun _ => ([], None))); [exact M1|exact M2|].
  unfold shared_rules. rewrite app_comm_cons, app_assoc.
  match goal with |- best_rule (?a ++ [?x; ?y; ?z]) _ _ = _ => change (a ++ [x; y; z]) with (a ++ x :: [y; z]) end.
  apply best_at.
  - cbn. lia.
  - cbn. rewrite SP. reflexivity.
  - assert (T : forall rs : list ((text -> nat) * (text -> effect)),
      Forall (fun r => fst r ("#"%char :: l ++ s) = 0) rs -> Forall (fun r => fst r ("#"%char :: l ++ s) < S (List.length l)) rs).
    { intro rs. apply Forall_impl. intros r ->. lia. }
    apply T. rewrite Forall_app. split.
    + destruct m; try congruence; cbn [own_rules]; repeat (apply Forall_cons; [reflexivity|]); apply Forall_nil.
    + constructor; [reflexivity|]. apply no_keyword. reflexivity.
  - repeat (apply Forall_cons; [cbn; lia|]). apply Forall_nil.
Qed.
Lemma toks_hash m l s : comment_mode m -> no_newline l -> match s with [] => True | c :: _ => is_newline c = true end ->
  toks m ("#"%char :: l ++ s) = toks m s.
Proof.
  intros M L Fs. rewrite (toks_cons m _ _ _ _ _ (flex_hash m l s M L Fs)). cbn [app after skipn].
  now rewrite skipn_len.
Qed.
Lemma toks_gap m g s : comment_mode m -> gap g -> toks m (g ++ s) = toks m s.
Proof.
  intros M. induction 1 as [|c g H _ IH|l g L _ IH]; [reflexivity| |].
  - cbn [app]. rewrite toks_space; [exact IH|apply M|now apply white_space].
  - cbn [app]. rewrite <- app_assoc. cbn [app]. rewrite (toks_hash m l _ M L); [|reflexivity].
    rewrite toks_space; [exact IH|apply M|reflexivity].
Qed.
Lemma toks_comment m q : comment_mode m -> comment q -> toks m q = [].
Proof.
  intros M [->|(l & -> & L)]; [apply toks_nil|]. rewrite <- (app_nil_r l). rewrite (toks_hash m l [] M L I). apply toks_nil.
Qed.

(** ** Colons *)

Definition colon_next (m : start) : start :=
  match m with
  | INITIAL => in_expression | in_comment_init => in_comment | in_keyword_token => INITIAL
  | m => m
  end.
Lemma flex_colon m s : open_mode m -> (m = in_string -> match s with [] => True | c :: _ => is_graph c = false end) ->
  flex m (":"%char :: s) = (1, ([KEY ":"], match m with in_string | in_pole => None | m => Some (colon_next m) end)).
Proof.
  intros [M1 M2] G.
  assert (P : forall a (f : text -> effect) b, Forall (fun r => fst r (":"%char :: s) <= 1) b ->
    best_rule ((one (Ascii.eqb ":"), f) :: map word_rule keywords ++ b) (":"%char :: s) (0, a) = (1, f)).
  { intros a f b B. apply (best_at [] (one (Ascii.eqb ":"))); [cbn; lia|reflexivity|constructor|]. apply Forall_app. split; [|exact B].
    pose proof (no_keyword ":"%char s eq_refl) as K. revert K. apply Forall_impl. intros r X. eapply Nat.le_trans; [apply Nat.eq_le_incl; exact X|apply Nat.le_0_l]. }
  assert (T : Forall (fun r : (text -> nat) * (text -> effect) => fst r (":"%char :: s) <= 1)
    [ (fun s => match one (Ascii.eqb "#") s with O => O | _ => span (fun c => negb (is_newline c)) s end, fun _ => ([], None));
      (span is_space, fun _ => ([], None));
      (one (fun c => negb (is_newline c)), fun _ => ([KEY "text"], None)) ]).
  { repeat (apply Forall_cons; [cbn; lia|]). apply Forall_nil. }
  assert (K : Forall (fun r => fst r (":"%char :: s) <= 1) shared_rules).
  { unfold shared_rules. constructor; [cbn; lia|]. apply Forall_app. split; [|exact T].
    pose proof (no_keyword ":"%char s eq_refl) as K. revert K. apply Forall_impl. intros r X. eapply Nat.le_trans; [apply Nat.eq_le_incl; exact X|apply Nat.le_0_l]. }
  destruct m; try congruence; cbn [colon_next].
  - apply (flex_best INITIAL _ 1 (fun _ => ([KEY ":"], Some in_expression))); try discriminate. apply P, T.
  - apply (flex_best in_comment_init _ 1 (fun _ => ([KEY ":"], Some in_comment))); try discriminate.
    apply (best_at [] (one (Ascii.eqb ":"))); [cbn; lia|reflexivity|constructor|exact K].
  - apply (flex_best in_keyword_token _ 1 (fun _ => ([KEY ":"], Some INITIAL))); try discriminate.
    apply (best_at [] (one (Ascii.eqb ":"))); [cbn; lia|reflexivity|constructor|exact K].
  - apply (flex_best in_string _ 1 (fun _ => ([KEY ":"], None))); try discriminate.
    apply (best_at [] (one (Ascii.eqb ":"))); [cbn; lia|reflexivity|constructor|].
    constructor; [|exact K]. cbn [fst span]. change (is_graph ":") with true. cbn iota.
    destruct s as [|c s]; [cbn; lia|]. cbn [span]. rewrite (G eq_refl). lia.
  - apply (flex_best in_pole _ 1 (fun _ => ([KEY ":"], None))); try discriminate.
    apply (best_at [] (one (Ascii.eqb ":"))); [cbn; lia|reflexivity|constructor|].
    do 4 (constructor; [cbn; lia|]). exact K.
Qed.
Lemma toks_colon m s : open_mode m -> (m = in_string -> match s with [] => True | c :: _ => is_graph c = false end) ->
  toks m (":"%char :: s) = KEY ":" :: toks (colon_next m) s.
Proof.
  intros M G. rewrite (toks_cons m _ _ _ _ _ (flex_colon m s M G)).
  destruct M. destruct m; try congruence; reflexivity.
Qed.

(** ** Keywords *)

Definition key_mode (k : string) : start :=
  if existsb (String.eqb k) name_keys then in_string
  else if existsb (String.eqb k) line_keys then in_comment_init
  else if existsb (String.eqb k) choice_keys then in_keyword_token
  else if String.eqb k "POLE" then in_pole else INITIAL.
Definition known : list string := name_keys ++ line_keys ++ choice_keys ++ number_keys ++ ["POLE"%string] ++ choices.
Definition kw_eqb (a b : keyword) : bool :=
  String.eqb (pattern a) (pattern b) && String.eqb (snd (fst a)) (snd (fst b)) &&
  match snd a, snd b with
  | None, None => true
  | Some in_string, Some in_string | Some in_comment_init, Some in_comment_init
  | Some in_keyword_token, Some in_keyword_token | Some in_pole, Some in_pole => true
  | _, _ => false
  end.
Lemma kw_eqb_eq a b : kw_eqb a b = true -> a = b.
Proof.
  destruct a as [[p t] m], b as [[q u] n]. unfold kw_eqb, pattern. cbn [fst snd]. rewrite !andb_true_iff.
  intros [[P T] M]. apply String.eqb_eq in P, T. subst. f_equal. destruct m as [[]|], n as [[]|]; try discriminate M; reflexivity.
Qed.
Definition begin_of (k : string) : option start := match key_mode k with INITIAL => None | m => Some m end.
Lemma known_check : forallb (fun k => existsb (kw_eqb (k, k, begin_of k)) keywords) known = true.
Proof. vm_compute. reflexivity. Qed.
Lemma synonyms_check : forallb (fun x => existsb (kw_eqb (snd x, fst x, begin_of (fst x))) keywords) synonyms = true.
Proof. vm_compute. reflexivity. Qed.
Lemma spelled_keyword k w s : In k known -> spelling k w -> word_ends s ->
  flex INITIAL (w ++ s) = (List.length w, ([KEY k], begin_of k)).
Proof.
  intros K (p & P & W) Fs.
  assert (I : In (p, k, begin_of k) keywords).
  { destruct P as [->|P].
    - pose proof known_check as C. rewrite forallb_forall in C. specialize (C _ K). apply existsb_exists in C.
      destruct C as (x & I & E). apply kw_eqb_eq in E. subst x. exact I.
    - pose proof synonyms_check as C. rewrite forallb_forall in C. specialize (C _ P). apply existsb_exists in C.
      destruct C as (x & I & E). apply kw_eqb_eq in E. subst x. exact I. }
  exact (flex_keyword p k (begin_of k) w s I W Fs).
Qed.
Lemma known_named k : In k known -> chars k <> [].
Proof.
  assert (C : forallb (fun k => negb (String.eqb k "")) known = true) by (vm_compute; reflexivity).
  rewrite forallb_forall in C. intros I E. specialize (C _ I). destruct k; [discriminate C|discriminate E].
Qed.
Lemma spelling_nonempty k w : In k known -> spelling k w -> w <> [].
Proof.
  intros K (p & P & W) ->. unfold in_any_case in W. cbn in W. destruct P as [->|P].
  - symmetry in W. exact (known_named k K W).
  - cbn in P. decompose [or] P; try contradiction; match goal with E : (_, _) = (_, _) |- _ => injection E as <- <- end; discriminate W.
Qed.
Lemma toks_keyword k w s : In k known -> spelling k w -> word_ends s ->
  toks INITIAL (w ++ s) = KEY k :: toks (key_mode k) s.
Proof.
  intros K W Fs.
  rewrite (toks_step INITIAL (w ++ s) _ _ _ ltac:(pose proof (spelling_nonempty k w K W); destruct w; [congruence|discriminate])
             (spelled_keyword k w s K W Fs)).
  rewrite skipn_len. cbn [app]. f_equal. f_equal. unfold begin_of. destruct (key_mode k); reflexivity.
Qed.

Lemma gap_ends g s : gap g -> word_ends (g ++ ":"%char :: s).
Proof.
  destruct 1 as [|c g H _|l g _ _]; try reflexivity. cbn. destruct H as [H|H]; destruct c as [[] [] [] [] [] [] [] []]; vm_compute in H |- *; try discriminate H; reflexivity.
Qed.
Lemma white_gap g : white g -> gap g.
Proof. induction 1; constructor; auto. Qed.

(** Keyword and colon. *)
Lemma toks_head k w g g' s : In k known -> In (key_mode k) [INITIAL; in_comment_init; in_keyword_token; in_pole] ->
  gap g -> spelling k w -> gap g' ->
  toks INITIAL (g ++ w ++ g' ++ ":"%char :: s) = KEY k :: KEY ":" :: toks (colon_next (key_mode k)) s.
Proof.
  intros K M G W G'. rewrite toks_gap; [|repeat split; discriminate|exact G].
  rewrite (toks_keyword k w _ K W); [|apply gap_ends, G'].
  assert (CM : comment_mode (key_mode k)) by (cbn in M; decompose [or] M; try contradiction; match goal with E : _ = key_mode k |- _ => rewrite <- E end; repeat split; discriminate).
  rewrite toks_gap; [|exact CM|exact G']. rewrite toks_colon; [reflexivity|apply CM|]. intro E. exfalso. now apply CM.
Qed.
Lemma toks_name_head k w g g' s : In k name_keys -> gap g -> spelling k w -> white g' ->
  match s with [] => True | c :: _ => is_graph c = false end ->
  toks INITIAL (g ++ w ++ g' ++ ":"%char :: s) = KEY k :: KEY ":" :: toks in_string s.
Proof.
  intros K G W G' Fs.
  assert (E : key_mode k = in_string) by (unfold key_mode; replace (existsb (String.eqb k) name_keys) with true; [reflexivity|];
    symmetry; apply existsb_exists; exists k; split; [exact K|apply String.eqb_refl]).
  rewrite toks_gap; [|repeat split; discriminate|exact G].
  rewrite (toks_keyword k w); [|unfold known; apply in_app_iff; auto|exact W|apply gap_ends, white_gap, G'].
  rewrite E. rewrite toks_white; [|split; discriminate|exact G']. rewrite toks_colon; [reflexivity|split; discriminate|auto].
Qed.

(** ** Names and poles *)

Lemma upper_graph c : is_graph (upper c) = is_graph c.
Proof. destruct c as [[] [] [] [] [] [] [] []]; vm_compute; reflexivity. Qed.
Lemma toks_name n s : Forall (fun c => is_graph c = true) n -> n <> [] -> n <> [":"%char] -> hd " "%char n <> "#"%char ->
  match s with [] => True | c :: _ => is_graph c = false end ->
  toks in_string (n ++ s) = STRING (string_of_list_ascii n) :: toks INITIAL s.
Proof.
  intros F N C H Fs.
  assert (E : flex in_string (n ++ s) = (List.length n, ([STRING (text_string (firstn (List.length n) (n ++ s)))], Some INITIAL))).
  { apply (flex_best in_string _ (List.length n) (fun s => ([STRING (text_string s)], Some INITIAL))); try discriminate.
    change (own_rules in_string ++ shared_rules) with
      ([colon None] ++ (span is_graph, fun s => ([STRING (text_string s)], Some INITIAL)) :: shared_rules).
    destruct n as [|c n]; [congruence|]. apply best_at.
    - cbn. lia.
    - apply span_app; [exact F|exact Fs].
    - constructor; [|constructor]. cbn [fst colon one app]. destruct (Ascii.eqb_spec ":" c) as [<-|]; [|cbn; lia].
      destruct n; [congruence|cbn; lia].
    - unfold shared_rules. constructor; [cbn [fst colon one app]; destruct (Ascii.eqb ":" c); cbn; lia|]. apply Forall_app. split.
      + apply Forall_forall. intros r I. apply in_map_iff in I. destruct I as ([[p t] b] & <- & I). cbn [word_rule fst].
        apply (literal_class is_graph); [apply upper_graph| |exact Fs].
        pose proof keywords_words as K. rewrite forallb_forall in K. specialize (K _ I). apply andb_true_iff in K. destruct K as [K _].
        cbn [pattern fst] in K. rewrite forallb_forall in K |- *. intros x X. specialize (K x X).
        destruct x as [[] [] [] [] [] [] [] []]; vm_compute in K |- *; congruence.
      + inversion F; subst. cbn [app] in *. repeat (apply Forall_cons); try apply Forall_nil; cbn [fst one span].
        * destruct (Ascii.eqb_spec "#" c) as [<-|]; [cbn in H; congruence|lia].
        * replace (is_space c) with false; [lia|]. symmetry. apply not_true_is_false. intro X. apply space_facts in X.
          destruct X as (_ & X & _). congruence.
        * destruct (negb _); cbn; lia. }
  rewrite (toks_step in_string (n ++ s) _ _ _ ltac:(destruct n; [congruence|discriminate]) E).
  rewrite firstn_len, skipn_len. reflexivity.
Qed.

Ltac parts SH := repeat first [exact SH|apply Forall_nil|simple apply Forall_cons].
Lemma flex_pole p t w s : In (p, t) [("N", "N"); ("NORTH", "N"); ("S", "S"); ("SOUTH", "S")]%string -> in_any_case p w -> word_ends s ->
  flex in_pole (w ++ s) = (List.length w, ([KEY t], Some INITIAL)).
Proof.
  intros I W Fs. apply (flex_best in_pole _ (List.length w) (fun _ => ([KEY t], Some INITIAL))); try discriminate.
  assert (NW : w <> []) by (intros ->; cbn in I; decompose [or] I; try contradiction; match goal with E : (_, _) = (_, _) |- _ => injection E as <- <- end; discriminate W).
  assert (PW : forall q, forallb word_char (chars q) = true -> literal_len (chars q) (w ++ s) <= List.length w /\
     (q <> p -> literal_len (chars q) (w ++ s) < List.length w)).
  { intros q Q. destruct (literal_same (chars q) w s Fs Q NW) as [L M]. split; [exact L|]. intro D.
    destruct (Nat.eq_dec (literal_len (chars q) (w ++ s)) (List.length w)) as [X|X]; [|lia].
    exfalso. apply D, chars_inj. rewrite <- (M X). exact W. }
  assert (AL : exists c w', w = c :: w' /\ Ascii.eqb ":" c = false /\ Ascii.eqb "#" c = false /\ is_space c = false).
  { destruct w as [|c w']; [congruence|]. exists c, w'. split; [reflexivity|].
    assert (U : upper c = "N"%char \/ upper c = "S"%char) by (cbn in I; decompose [or] I; try contradiction; match goal with E : (_, _) = (_, _) |- _ => injection E as <- <- end; injection W; auto).
    destruct c as [[] [] [] [] [] [] [] []]; vm_compute in U |- *; destruct U as [U|U]; try discriminate U; auto. }
  destruct AL as (c & w' & EW & C1 & C2 & C3).
  assert (SH : Forall (fun r => fst r (w ++ s) <= List.length w) shared_rules).
  { unfold shared_rules. constructor; [rewrite EW; cbn [fst colon one app]; rewrite C1; cbn; lia|]. apply Forall_app. split.
    - apply Forall_forall. intros r K. apply in_map_iff in K. destruct K as ([[q u] b] & <- & K). cbn [word_rule fst].
      apply PW. pose proof keywords_words as KW. rewrite forallb_forall in KW. specialize (KW _ K). apply andb_true_iff in KW. apply KW.
    - rewrite EW. repeat (apply Forall_cons); try apply Forall_nil; cbn [fst app one span]; rewrite ?C2, ?C3; try (cbn; lia).
      destruct (negb _); cbn; lia. }
  assert (LW : 1 <= List.length w) by (rewrite EW; cbn; lia).
  assert (CO : fst (colon None) (w ++ s) < List.length w) by (rewrite EW; cbn [fst colon one app]; rewrite C1; cbn; lia).
  set (r1 := word_rule ("N", "N", Some INITIAL)%string). set (r2 := word_rule ("NORTH", "N", Some INITIAL)%string).
  set (r3 := word_rule ("S", "S", Some INITIAL)%string). set (r4 := word_rule ("SOUTH", "S", Some INITIAL)%string).
  assert (B1 : fst r1 (w ++ s) <= List.length w /\ ("N"%string <> p -> fst r1 (w ++ s) < List.length w)) by (apply PW; reflexivity).
  assert (B2 : fst r2 (w ++ s) <= List.length w /\ ("NORTH"%string <> p -> fst r2 (w ++ s) < List.length w)) by (apply PW; reflexivity).
  assert (B3 : fst r3 (w ++ s) <= List.length w /\ ("S"%string <> p -> fst r3 (w ++ s) < List.length w)) by (apply PW; reflexivity).
  assert (B4 : fst r4 (w ++ s) <= List.length w /\ ("SOUTH"%string <> p -> fst r4 (w ++ s) < List.length w)) by (apply PW; reflexivity).
  assert (WH : literal_len (chars p) (w ++ s) = List.length w).
  { apply literal_whole; [|exact W]. intro E. unfold in_any_case in W. rewrite E in W. destruct w; [congruence|discriminate]. }
  change (own_rules in_pole ++ shared_rules) with (colon None :: r1 :: r2 :: r3 :: r4 :: shared_rules).
  cbn in I. destruct I as [I|[I|[I|[I|[]]]]]; injection I as <- <-.
  - apply (best_at [colon None] (literal_len (chars "N")) _ (r2 :: r3 :: r4 :: shared_rules)); [cbn [fst]; lia|exact WH| |]; parts SH; try exact CO;
      first [exact (proj1 B1)|exact (proj1 B2)|exact (proj1 B3)|exact (proj1 B4)
            |apply (proj2 B1); discriminate|apply (proj2 B2); discriminate|apply (proj2 B3); discriminate].
  - apply (best_at [colon None; r1] (literal_len (chars "NORTH")) _ (r3 :: r4 :: shared_rules)); [cbn [fst]; lia|exact WH| |]; parts SH; try exact CO;
      first [exact (proj1 B1)|exact (proj1 B2)|exact (proj1 B3)|exact (proj1 B4)
            |apply (proj2 B1); discriminate|apply (proj2 B2); discriminate|apply (proj2 B3); discriminate].
  - apply (best_at [colon None; r1; r2] (literal_len (chars "S")) _ (r4 :: shared_rules)); [cbn [fst]; lia|exact WH| |]; parts SH; try exact CO;
      first [exact (proj1 B1)|exact (proj1 B2)|exact (proj1 B3)|exact (proj1 B4)
            |apply (proj2 B1); discriminate|apply (proj2 B2); discriminate|apply (proj2 B3); discriminate].
  - apply (best_at [colon None; r1; r2; r3] (literal_len (chars "SOUTH")) _ shared_rules); [cbn [fst]; lia|exact WH| |]; parts SH; try exact CO;
      first [exact (proj1 B1)|exact (proj1 B2)|exact (proj1 B3)|exact (proj1 B4)
            |apply (proj2 B1); discriminate|apply (proj2 B2); discriminate|apply (proj2 B3); discriminate].
Qed.

(** ** Numbers *)

Lemma longest_at pre f a post s n : 0 < n -> f s = n ->
  Forall (fun r => fst r s < n) pre -> Forall (fun r => fst r s <= n) post ->
  longest (pre ++ (f, a) :: post) s (0, EndOfLine) = (n, a).
Proof.
  intros N E P Q. rewrite longest_app. cbn [longest].
  assert (L : forall best, fst best < n -> fst (longest pre s best) < n).
  { clear -P. induction P as [|[g b] pre H _ IH]; intros best B; [exact B|]. cbn [longest fst] in *. apply IH.
    destruct (Nat.ltb_spec (fst best) (g s)); cbn [fst]; lia. }
  specialize (L (0, EndOfLine) N). rewrite E, (proj2 (Nat.ltb_lt _ _) L). apply longest_small. exact Q.
Qed.
Lemma digit_parts c : is_digit c = true -> is_sign c = false /\ Ascii.eqb c "." = false /\ Ascii.eqb (upper c) "E" = false.
Proof. exact (not_digit_facts c). Qed.
Lemma upper_e c : upper c = "E"%char -> c = "E"%char \/ c = "e"%char.
Proof. destruct c as [[] [] [] [] [] [] [] []]; vm_compute; intro H; try discriminate H; auto. Qed.
Lemma sign_cases c : is_sign c = true -> c = "-"%char \/ c = "+"%char.
Proof. unfold is_sign. rewrite orb_true_iff. intros [H|H]; apply Ascii.eqb_eq in H; auto. Qed.
Lemma stops s : ~ continues_number s ->
  span is_digit s = 0 /\ fraction_len s = 0 /\ exponent_len s = 0.
Proof.
  intro N. destruct s as [|c s]; [repeat split; reflexivity|]. cbn [continues_number] in N.
  assert (D : is_digit c = false) by (apply not_true_is_false; auto).
  cbn [span]. rewrite D. split; [reflexivity|]. split.
  - cbn [fraction_len]. destruct (Ascii.eqb_spec c "."); [exfalso; auto|reflexivity].
  - cbn [exponent_len]. destruct (Ascii.eqb_spec (upper c) "E") as [U|U]; [|reflexivity]. apply upper_e in U.
    destruct s as [|d s]; [reflexivity|]. cbn [sign_len]. destruct (is_sign d) eqn:G.
    + apply sign_cases in G. cbn [skipn]. destruct s as [|e s]; [reflexivity|]. cbn [span].
      destruct (is_digit e) eqn:X; [exfalso; apply N; auto 6|reflexivity].
    + cbn [skipn span]. destruct (is_digit d) eqn:X; [exfalso; apply N; auto 6|reflexivity].
Qed.
Lemma num_len_apart sg d fr ex r :
  is_num_sign sg -> d <> [] -> Forall (fun c => is_digit c = true) d ->
  fr = [] \/ (exists l, fr = "."%char :: l /\ Forall (fun c => is_digit c = true) l) ->
  ex = [] \/ (exists c sg l, ex = c :: sg ++ l /\ (c = "E" \/ c = "e")%char /\ is_num_sign sg /\
               1 <= List.length l <= 3 /\ Forall (fun c => is_digit c = true) l) ->
  ~ continues_number r ->
  num_len (sg ++ d ++ fr ++ ex ++ r) = List.length (sg ++ d ++ fr ++ ex).
Proof.
  intros Hs Nd Hd Hf He R. destruct (stops r R) as (R1 & R2 & R3). unfold num_len.
  assert (SL : forall d' Y, d' <> [] -> Forall (fun c => is_digit c = true) d' -> forall sg, is_num_sign sg ->
    sign_len (sg ++ d' ++ Y) = List.length sg).
  { intros d' Y N F sg' H. destruct H as [->|[->| ->]]; try reflexivity.
    destruct d' as [|c d']; [congruence|]. inversion F; subst. cbn [app sign_len].
    destruct (not_digit_facts c) as [-> _]; auto. }
  assert (RD : match r with c :: _ => is_digit c = false | [] => True end).
  { destruct r as [|c r]; [exact I|]. cbn [span] in R1. destruct (is_digit c); [discriminate|reflexivity]. }
  rewrite (SL d (fr ++ ex ++ r) Nd Hd sg Hs), skipn_len.
  assert (EX : (match ex ++ r with c :: _ => is_digit c = false | [] => True end)).
  { destruct He as [->|(c & s2 & l & -> & [->| ->] & _)]; [exact RD|reflexivity|reflexivity]. }
  rewrite (span_app is_digit d).
  2: exact Hd.
  2: { destruct Hf as [->|(l & -> & _)]; cbn [app]; [exact EX|reflexivity]. }
  rewrite skipn_more, skipn_len.
  assert (FL : fraction_len (fr ++ ex ++ r) = List.length fr).
  { destruct Hf as [->|(l & -> & Fl)]; cbn [app].
    - destruct He as [->|(c & s2 & l & -> & [->| ->] & _)]; [exact R2|reflexivity|reflexivity].
    - cbn [fraction_len Ascii.eqb Bool.eqb]. rewrite (span_app is_digit l); [reflexivity|exact Fl|exact EX]. }
  rewrite FL. rewrite <- !Nat.add_assoc, skipn_more, skipn_more, skipn_len.
  assert (XL : exponent_len (ex ++ r) = List.length ex).
  { destruct He as [->|(c & s2 & l & -> & Hc & Hs2 & Hl & Fl)]; [exact R3|].
    cbn [app exponent_len].
    assert (Ascii.eqb (upper c) "E" = true) as -> by (destruct Hc as [->| ->]; reflexivity).
    rewrite <- (app_assoc s2). rewrite (SL l r ltac:(destruct l; [cbn in Hl; lia|discriminate]) Fl s2 Hs2), skipn_len.
    rewrite (span_app is_digit l) by (auto). rewrite Nat.min_r by lia.
    destruct (List.length l) eqn:E; [lia|]. cbn [List.length]. rewrite app_length, E. reflexivity. }
  rewrite XL. rewrite !app_length. lia.
Qed.

Lemma span_class f w s : match s with [] => True | c :: _ => f c = false end -> span f (w ++ s) <= List.length w.
Proof.
  intro H. induction w as [|c w IH]; cbn [app span List.length].
  - destruct s as [|c s]; cbn; [lia|]. rewrite H. lia.
  - destruct (f c); lia.
Qed.
Lemma word_ends_class s : word_ends s ->
  match s with [] => True | c :: _ => is_alpha c = false end /\ match s with [] => True | c :: _ => is_digit c = false end.
Proof.
  destruct s as [|c s]; [auto|]. cbn. unfold word_char. intro H. apply orb_false_iff in H. destruct H as [H _].
  apply orb_false_iff in H. exact H.
Qed.
Lemma word_len_class w s : word_ends s -> word_len (w ++ s) <= List.length w.
Proof.
  intro H. apply word_ends_class in H. destruct H as [A D]. unfold word_len.
  pose proof (span_class is_alpha w s A) as L. destruct (span is_alpha (w ++ s)) as [|n] eqn:E; [lia|].
  rewrite skipn_app_le by exact L. pose proof (span_class is_digit (skipn (S n) w) s D) as M. rewrite skipn_length in M. lia.
Qed.

Definition suffixes : list string := ["C"; "G"; "N"; "S"; "E"; "W"; "AU"; "KM"; "CW"; "CCW"]%string.
Definition pre_letters : list ((text -> nat) * action) := firstn 12 rules.
Lemma rules_letters : rules = pre_letters ++ map letter suffixes ++
  [(num_len, Number); (word_len, Word); (one (fun c => negb (is_newline c)), Leave TUnmatched); (one is_newline, EndOfLine)].
Proof. reflexivity. Qed.
Lemma letters_alpha c s : is_alpha c = true ->
  Forall (fun r => fst r (c :: s) = 0 \/ exists q, r = (literal_len (chars q), Leave (TOther (chars q))) /\ In q ["AUTO"; "TABLE"]%string) pre_letters.
Proof.
  intro A.
  assert (N : forall d, is_alpha d = false -> Ascii.eqb d c = false) by (intros d D; apply Ascii.eqb_neq; congruence).
  assert (B : is_blank c = false) by (unfold is_blank; rewrite (Ascii.eqb_sym c " "), (Ascii.eqb_sym c (ascii_of_nat 9)), !N by reflexivity; reflexivity).
  unfold pre_letters, rules. cbn [firstn].
  repeat (apply Forall_cons; [|]); try apply Forall_nil; cbn [fst one span]; rewrite ?B; try (left; rewrite N by reflexivity; reflexivity);
    try (left; reflexivity); right; eexists; (split; [reflexivity|cbn; auto]).
Qed.
Lemma exponent_word w s : w <> [] -> Forall (fun c => is_alpha c = true) w -> word_ends s ->
  match s with c :: _ => c <> "-" /\ c <> "+" | [] => True end%char -> num_len (w ++ s) = 0.
Proof.
  intros N F E S. destruct w as [|c w]; [congruence|]. inversion F as [|? ? A F']; subst. cbn [app].
  assert (AF : forall d, is_alpha d = true -> is_sign d = false /\ is_digit d = false /\ Ascii.eqb d "." = false).
  { intros d. destruct d as [[] [] [] [] [] [] [] []]; vm_compute; intro H; try discriminate H; auto. }
  destruct (AF c A) as (A1 & A2 & A3). unfold num_len. cbn [sign_len]. rewrite A1. cbn [skipn span]. rewrite A2. cbn [Nat.add skipn fraction_len].
  rewrite A3. cbn [skipn exponent_len]. destruct (Ascii.eqb (upper c) "E"); [|reflexivity].
  assert (X : forall d r, w ++ s = d :: r -> is_sign d = false /\ is_digit d = false).
  { intros d r Y. destruct w as [|d' w]; cbn [app] in Y.
    - subst s. apply word_ends_class in E. split; [|apply E]. unfold is_sign. destruct S as [S1 S2].
      apply Ascii.eqb_neq in S1, S2. now rewrite S1, S2.
    - injection Y as -> _. inversion F' as [|? ? A' F'']; subst. destruct (AF d A') as (? & ? & ?). auto. }
  destruct (w ++ s) as [|d r]; [reflexivity|]. destruct (X d r eq_refl) as [X1 X2]. cbn [sign_len]. rewrite X1. cbn [skipn span]. rewrite X2. reflexivity.
Qed.
Lemma upper_alpha c : is_alpha (upper c) = is_alpha c.
Proof. destruct c as [[] [] [] [] [] [] [] []]; vm_compute; reflexivity. Qed.
Lemma all_alpha k w : forallb is_alpha (chars k) = true -> in_any_case k w -> Forall (fun c => is_alpha c = true) w.
Proof.
  intros A W. unfold in_any_case in W. rewrite <- W, forallb_forall in A. apply Forall_forall. intros c I.
  rewrite <- upper_alpha. apply A, in_map, I.
Qed.
Lemma literal_other k q w s : word_ends s -> forallb word_char (chars q) = true -> in_any_case k w -> w <> [] ->
  literal_len (chars q) (w ++ s) <= List.length w /\ (q <> k -> literal_len (chars q) (w ++ s) < List.length w).
Proof.
  intros E Q W N. destruct (literal_same (chars q) w s E Q N) as [L M]. split; [exact L|]. intro D.
  destruct (Nat.eq_dec (literal_len (chars q) (w ++ s)) (List.length w)) as [X|X]; [|lia].
  exfalso. apply D, chars_inj. rewrite <- (M X). exact W.
Qed.
Lemma suffix_facts k : In k suffixes -> forallb is_alpha (chars k) = true /\ chars k <> [] /\ k <> "AUTO"%string /\ k <> "TABLE"%string.
Proof. cbn. intro I. decompose [or] I; subst; try contradiction; repeat split; discriminate. Qed.
Lemma suffix_words q : In q (suffixes ++ ["AUTO"; "TABLE"]%string) -> forallb word_char (chars q) = true.
Proof. cbn. intro I. decompose [or] I; subst; try contradiction; reflexivity. Qed.
Lemma suffixes_once : NoDup suffixes.
Proof. repeat constructor; cbn; intuition discriminate. Qed.
Lemma one_small f s : one f s <= 1.
Proof. destruct s as [|c s]; cbn; [lia|]. destruct (f c); lia. Qed.

Lemma match_suffix k w s : In k suffixes -> in_any_case k w -> word_ends s ->
  match s with c :: _ => c <> "-" /\ c <> "+" | [] => True end%char ->
  match_at (w ++ s) = (List.length w, Give (TOther (chars k))).
Proof.
  intros I W E S. destruct (suffix_facts k I) as (A & N & N1 & N2).
  assert (NW : w <> []) by (intros ->; unfold in_any_case in W; cbn in W; congruence).
  pose proof (all_alpha k w A W) as AW.
  destruct (in_split _ _ I) as (pre & post & EQ). pose proof suffixes_once as O. rewrite EQ in O. apply NoDup_remove_2 in O. rewrite in_app_iff in O.
  unfold match_at. rewrite rules_letters, EQ, map_app. cbn [map]. rewrite <- app_assoc. cbn [app]. rewrite app_assoc.
  change (letter k) with (literal_len (chars k), Give (TOther (chars k))).
  assert (LW : 0 < List.length w) by (destruct w; [congruence|cbn; lia]).
  apply longest_at.
  - exact LW.
  - apply literal_whole; [exact N|exact W].
  - apply Forall_app. split.
    + destruct w as [|c w]; [congruence|]. cbn [app]. inversion AW as [|? ? AC _]; subst.
      pose proof (letters_alpha c (w ++ s) AC) as P. revert P. apply Forall_impl. intros r [X|(q & -> & Q)]; [eapply Nat.le_lt_trans; [apply Nat.eq_le_incl; exact X|exact LW]|].
      cbn [fst]. apply (literal_other k q (c :: w) s E); [apply suffix_words, in_app_iff; right; exact Q|exact W|discriminate|].
      cbn in Q. destruct Q as [<-|[<-|[]]]; congruence.
    + apply Forall_forall. intros r R. apply in_map_iff in R. destruct R as (q & <- & Q). cbn [letter fst].
      apply (literal_other k q w s E); [|exact W|exact NW|intros ->; auto].
      apply suffix_words. rewrite EQ, !in_app_iff. auto.
  - apply Forall_app. split.
    + apply Forall_forall. intros r R. apply in_map_iff in R. destruct R as (q & <- & Q). cbn [letter fst].
      apply (literal_other k q w s E); [|exact W|exact NW].
      apply suffix_words. rewrite EQ, !in_app_iff. cbn. auto.
    + repeat (apply Forall_cons; [|]); try apply Forall_nil; cbn [fst].
      * rewrite (exponent_word w s NW AW E S). lia.
      * apply word_len_class, E.
      * pose proof (one_small (fun c => negb (is_newline c)) (w ++ s)). lia.
      * pose proof (one_small is_newline (w ++ s)). lia.
Qed.

Lemma match_leave k w s : In k ["AUTO"; "TABLE"]%string -> in_any_case k w -> word_ends s ->
  match_at (w ++ s) = (List.length w, Leave (TOther (chars k))).
Proof.
  intros I W E.
  assert (A : forallb is_alpha (chars k) = true /\ chars k <> [] /\ ~ In k suffixes /\ Ascii.eqb (hd " "%char (chars k)) "E" = false).
  { cbn in I. destruct I as [<-|[<-|[]]]; cbn; intuition discriminate. }
  destruct A as (A & N & N1 & NE).
  assert (NW : w <> []) by (intros ->; unfold in_any_case in W; cbn in W; congruence).
  pose proof (all_alpha k w A W) as AW.
  assert (LW : 0 < List.length w) by (destruct w; [congruence|cbn; lia]).
  assert (NUM : num_len (w ++ s) = 0).
  { destruct w as [|c w]; [congruence|]. inversion AW as [|? ? AC _]; subst. unfold in_any_case in W. rewrite <- W in NE. cbn [map hd] in NE.
    assert (AF : is_sign c = false /\ is_digit c = false /\ Ascii.eqb c "." = false).
    { destruct c as [[] [] [] [] [] [] [] []]; vm_compute in AC |- *; try discriminate AC; auto. }
    destruct AF as (A1 & A2 & A3). unfold num_len. cbn [app sign_len]. rewrite A1. cbn [skipn span]. rewrite A2.
    cbn [Nat.add skipn fraction_len]. rewrite A3. cbn [skipn exponent_len]. rewrite NE. reflexivity. }
  assert (LET : Forall (fun r => fst r (w ++ s) <= List.length w) (map letter suffixes)).
  { apply Forall_forall. intros r R. apply in_map_iff in R. destruct R as (q & <- & Q). cbn [letter fst].
    apply (literal_other k q w s E); [|exact W|exact NW]. apply suffix_words, in_app_iff. auto. }
  assert (END : Forall (fun r => fst r (w ++ s) <= List.length w)
    [(num_len, Number); (word_len, Word); (one (fun c => negb (is_newline c)), Leave TUnmatched); (one is_newline, EndOfLine)]).
  { repeat (apply Forall_cons; [|]); try apply Forall_nil; cbn [fst].
    - rewrite NUM. lia.
    - apply word_len_class, E.
    - pose proof (one_small (fun c => negb (is_newline c)) (w ++ s)). lia.
    - pose proof (one_small is_newline (w ++ s)). lia. }
  assert (PRE : Forall (fun r => fst r (w ++ s) = 0 \/ exists q, r = (literal_len (chars q), Leave (TOther (chars q))) /\ In q ["AUTO"; "TABLE"]%string) pre_letters).
  { destruct w as [|c w]; [congruence|]. inversion AW; subst. now apply letters_alpha. }
  unfold match_at. rewrite rules_letters.
  assert (Z : forall rs, Forall (fun r => fst r (w ++ s) = 0 \/ exists q, r = (literal_len (chars q), Leave (TOther (chars q))) /\ In q ["AUTO"; "TABLE"]%string) rs ->
     Forall (fun r => fst r (w ++ s) <= List.length w) rs).
  { intro rs. apply Forall_impl. intros r [X|(q & -> & Q)]; [eapply Nat.le_trans; [apply Nat.eq_le_incl; exact X|apply Nat.le_0_l]|]. cbn [fst].
    apply (literal_other k q w s E); [apply suffix_words, in_app_iff; right; exact Q|exact W|exact NW]. }
  assert (LT : forall n, n <= 2 -> Forall (fun r => fst r (w ++ s) < List.length w) (firstn n pre_letters)).
  { intros n L. rewrite Forall_forall in PRE |- *. intros r R.
    assert (R2 : In r (firstn 2 pre_letters)).
    { destruct n as [|[|[|n]]]; [contradiction| |exact R|lia]. cbn in R |- *. destruct R as [R|[]]. auto. }
    destruct (PRE r) as [X|(q & -> & Q)]; [|eapply Nat.le_lt_trans; [apply Nat.eq_le_incl; exact X|exact LW]|].
    - rewrite <- (firstn_skipn 2 pre_letters). apply in_app_iff. auto.
    - exfalso. cbn in R2. destruct R2 as [R2|[R2|[]]]; discriminate (f_equal snd R2). }
  pose proof PRE as PRE0. apply Z in PRE0.
  cbn in I. destruct I as [<-|[<-|[]]].
  - change pre_letters with (firstn 2 pre_letters ++ (literal_len (chars "AUTO"), Leave (TOther (chars "AUTO"))) :: skipn 3 pre_letters) in PRE0 |- *.
    rewrite <- app_assoc. cbn [app]. apply longest_at; [exact LW|apply literal_whole; [exact N|exact W]|apply LT; lia|].
    rewrite !Forall_app. split; [|auto]. apply Forall_app in PRE0. destruct PRE0 as [_ P]. now inversion P.
  - change pre_letters with ((firstn 2 pre_letters ++ [(literal_len (chars "AUTO"), Leave (TOther (chars "AUTO")))]) ++
      (literal_len (chars "TABLE"), Leave (TOther (chars "TABLE"))) :: skipn 4 pre_letters) in PRE0 |- *.
    rewrite <- (app_assoc (firstn 2 pre_letters ++ _)). cbn [app]. apply longest_at; [exact LW|apply literal_whole; [exact N|exact W]| |].
    + apply Forall_app. split; [apply LT; lia|]. constructor; [|constructor]. cbn [fst].
      apply (literal_other "TABLE" "AUTO" w s E); [reflexivity|exact W|exact NW|discriminate].
    + rewrite !Forall_app. split; [|auto]. apply Forall_app in PRE0. destruct PRE0 as [_ P]. now inversion P.
Qed.

Lemma match_sign c s : c = "-"%char \/ c = "+"%char -> ~ continues_number s ->
  match_at (c :: s) = (1, Give (TOp (if Ascii.eqb c "-" then OpSub else OpAdd))).
Proof.
  intros C N. destruct (stops s N) as (N1 & N2 & N3).
  assert (L : num_len (c :: s) = 1).
  { unfold num_len. replace (sign_len (c :: s)) with 1 by (destruct C as [->| ->]; reflexivity). cbn [skipn].
    rewrite N1. cbn [Nat.add skipn]. rewrite N2. cbn [Nat.add skipn]. rewrite N3. reflexivity. }
  unfold match_at. rewrite rules_split, longest_app.
  assert (P : longest pre_num (c :: s) (0, EndOfLine) = (1, Give (TOp (if Ascii.eqb c "-" then OpSub else OpAdd)))) by (destruct C as [->| ->]; reflexivity).
  rewrite P. apply longest_small. repeat (apply Forall_cons; [|]); try apply Forall_nil; cbn [fst].
  - rewrite L. lia.
  - destruct C as [->| ->]; cbn; lia.
  - apply one_small.
  - apply one_small.
Qed.
Lemma match_function n f s : In (n, f) builtins -> word_ends s ->
  match_at (chars n ++ s) = (List.length (chars n), Word) /\ getsym symrec_new n = Some (Fnct f).
Proof.
  intros I E. split; [|cbn in I; decompose [or] I; try contradiction; match goal with X : (_, _) = (_, _) |- _ => injection X as <- <- end; reflexivity].
  assert (W : word_len (chars n ++ s) = List.length (chars n)).
  { unfold word_len. apply word_ends_class in E. destruct E as [A D]. rewrite (span_app is_alpha (chars n) s); [| |exact A].
    - assert (Z : span is_digit s = 0) by (destruct s as [|c s]; [reflexivity|]; cbn [span]; now rewrite D).
      destruct (List.length (chars n)) as [|m] eqn:L; [reflexivity|]. rewrite <- L, skipn_len, Z. lia.
    - cbn in I. decompose [or] I; try contradiction; match goal with X : (_, _) = (_, _) |- _ => injection X as <- <- end; repeat constructor. }
  unfold match_at. change rules with (firstn 23 rules ++ (word_len, Word) :: skipn 24 rules).
  assert (P : Forall (fun r => fst r (chars n ++ s) < List.length (chars n)) (firstn 23 rules)).
  { assert (Q : forallb (fun r : (text -> nat) * action => Nat.ltb (fst r (chars n ++ s)) (List.length (chars n))) (firstn 23 rules) = true).
    { cbn in I. decompose [or] I; try contradiction; match goal with X : (_, _) = (_, _) |- _ => injection X as <- <- end; reflexivity. }
    rewrite forallb_forall in Q. apply Forall_forall. intros r R. apply Nat.ltb_lt, (Q r R). }
  assert (L : 0 < List.length (chars n)).
  { inversion P as [|? ? X _]; subst. lia. }
  apply longest_at; [exact L|exact W|exact P|].
  cbn [skipn rules]. repeat (apply Forall_cons; [|]); try apply Forall_nil; cbn [fst]; (eapply Nat.le_trans; [apply one_small|exact L]).
Qed.

Lemma flex_put t w s : put t w -> apart t s -> flex in_expression (w ++ s) = (List.length w, ([t], None)).
Proof.
  intros P A. unfold flex. destruct P as [t w W|k w I W].
  - destruct W as [o| | | |n f I|sg d fr ex Hs Nd Hd Hf He].
    + destruct o; try reflexivity.
      * cbn [apart] in A. cbn [app op_char]. rewrite (match_sign "+"); auto.
      * cbn [apart] in A. cbn [app op_char]. rewrite (match_sign "-"); auto.
    + reflexivity.
    + reflexivity.
    + reflexivity.
    + destruct (match_function n f s I A) as [M G]. rewrite M, firstn_len. cbn [expression_effect]. unfold text_string.
      unfold chars at 2. rewrite string_of_list_ascii_of_string, G. reflexivity.
    + cbn [apart] in A. pose proof (num_len_apart sg d fr ex s Hs Nd Hd Hf He A) as L.
      set (w := sg ++ d ++ fr ++ ex) in *.
      assert (E : (sg ++ d ++ fr ++ ex ++ s) = w ++ s) by (unfold w; now rewrite <- !app_assoc).
      rewrite E in L.
      assert (M : match_at (w ++ s) = (List.length w, Number)).
      { rewrite <- L. destruct d as [|c d]; [congruence|].
        destruct Hs as [Hs|Hs].
        - subst sg. unfold w. cbn [app]. apply (match_number c _ 0).
          + left. inversion Hd; auto.
          + unfold w in L. cbn [app] in L. rewrite L. cbn. lia.
        - unfold w in *. destruct Hs as [->| ->]; cbn [app] in *; (apply (match_number _ _ 1); [right; split; reflexivity|rewrite L; cbn; lia]). }
      rewrite M, firstn_len. reflexivity.
  - destruct A as [A1 A2]. rewrite (match_suffix k w s I W A1 A2), firstn_len. cbn [expression_effect give]. unfold text_string, chars.
    now rewrite string_of_list_ascii_of_string.
Qed.
Lemma put_nonempty t w : put t w -> w <> [].
Proof.
  destruct 1 as [t w W|k w I W].
  - apply written_length in W. destruct w; [cbn in W; lia|discriminate].
  - intros ->. destruct (suffix_facts k I) as (_ & N & _). unfold in_any_case in W. cbn in W. congruence.
Qed.

Lemma flex_blank c s : is_blank c = true -> flex in_expression (c :: s) = (span is_blank (c :: s), ([], None)).
Proof.
  intro B. unfold flex.
  assert (M : match_at (c :: s) = (span is_blank (c :: s), Skip)).
  { unfold match_at. change rules with (firstn 1 rules ++ (span is_blank, Skip) :: skipn 2 rules).
    assert (L : 0 < span is_blank (c :: s)) by (cbn [span]; rewrite B; lia).
    unfold is_blank in B. apply orb_true_iff in B.
    assert (C : c = " "%char \/ c = ascii_of_nat 9) by (destruct B as [B|B]; apply Ascii.eqb_eq in B; auto).
    apply longest_at; [exact L|reflexivity| |].
    - constructor; [|constructor]. destruct C as [->| ->]; exact L.
    - unfold rules. cbn [skipn]. destruct C as [->| ->]; repeat (apply Forall_cons; [cbn; lia|]); apply Forall_nil. }
  rewrite M. reflexivity.
Qed.
Lemma toks_blank c s : is_blank c = true -> toks in_expression (c :: s) = toks in_expression s.
Proof.
  intros H. rewrite (toks_cons in_expression c s _ _ _ (flex_blank c s H)). cbn [app after].
  cbn [span]. rewrite H. cbn [skipn]. destruct s as [|d s]; [reflexivity|].
  destruct (is_blank d) eqn:D; [|cbn [span]; rewrite D; reflexivity].
  rewrite (toks_cons in_expression d s _ _ _ (flex_blank d s D)). reflexivity.
Qed.
Lemma toks_blanks b s : Forall (fun c => is_blank c = true) b -> toks in_expression (b ++ s) = toks in_expression s.
Proof. induction 1 as [|c b H _ IH]; [reflexivity|]. cbn [app]. now rewrite toks_blank. Qed.
Lemma toks_line_end s : toks in_expression (newline :: s) = toks INITIAL s.
Proof. rewrite (toks_cons in_expression newline s 1 [] (Some INITIAL) eq_refl). reflexivity. Qed.
Lemma toks_expression_comment q s : comment q -> match s with [] => True | c :: _ => is_newline c = true end ->
  toks in_expression (q ++ s) = toks in_expression s.
Proof.
  intros [->|(l & -> & L)] E; [reflexivity|]. cbn [app].
  assert (SP : span (fun c => negb (is_newline c)) (l ++ s) = List.length l).
  { apply span_app; [revert L; apply Forall_impl; intros c ->; reflexivity|]. destruct s as [|c s]; [exact I|]. now rewrite E. }
  assert (F : flex in_expression ("#"%char :: l ++ s) = (S (List.length l), ([], None))).
  { unfold flex.
    assert (M : match_at ("#"%char :: l ++ s) = (S (List.length l), Skip)).
    { unfold match_at. apply (longest_at [] _ Skip (skipn 1 rules)); [lia| |constructor|].
      - cbn [one Ascii.eqb Bool.eqb span]. change (is_newline "#") with false. cbn [negb]. now rewrite SP.
      - unfold rules. cbn [skipn]. repeat (apply Forall_cons; [cbn; lia|]). apply Forall_nil. }
    rewrite M. reflexivity. }
  rewrite (toks_cons in_expression _ _ _ _ _ F). cbn [app after skipn]. now rewrite skipn_len.
Qed.

(** What may follow a line of numbers does not run on from it. *)
Definition line_tail (r : text) : Prop := match r with [] => True | c :: _ => c = "#"%char \/ c = newline end.
Lemma apart_tail t s r : apart t s -> line_tail r -> apart t (s ++ r).
Proof.
  intros A T.
  assert (W : word_ends s -> word_ends (s ++ r)).
  { destruct s as [|c s]; [|auto]. intros _. destruct r as [|c r]; [exact I|]. destruct T as [->| ->]; reflexivity. }
  assert (C : continues_number (s ++ r) -> continues_number s).
  { destruct s as [|c s]; cbn [app].
    - destruct r as [|c r]; [auto|]. cbn [continues_number]. destruct T as [->| ->]; intros [H|[H|[[H|H] _]]]; try discriminate H.
    - cbn [continues_number]. intros [H|[H|[H K]]]; auto. right. right. split; [exact H|].
      destruct s as [|d s]; cbn [app] in K.
      + destruct r as [|d r]; [auto|]. destruct T as [->| ->]; destruct K as [K|[[K|K] _]]; discriminate K.
      + destruct K as [K|[K L]]; auto. right. split; [exact K|]. destruct s as [|e s]; cbn [app] in L; [|auto].
        destruct r as [|e r]; [auto|]. destruct T as [->| ->]; discriminate L. }
  destruct t as [k|k|t]; [|exact I|].
  - destruct A as [A1 A2]. split; [auto|]. destruct s as [|c s]; [|exact A2]. destruct r as [|c r]; [exact I|].
    destruct T as [->| ->]; split; discriminate.
  - destruct t as [o| | | | | |f| |]; cbn [apart] in *; auto. destruct o; auto.
Qed.
Lemma toks_on_line ts e : on_line ts e -> forall r, line_tail r -> toks in_expression (e ++ r) = ts ++ toks in_expression r.
Proof.
  induction 1 as [|c ts s B _ IH|t w ts s P A _ IH]; intros r T.
  - reflexivity.
  - cbn [app]. rewrite toks_blank by exact B. auto.
  - rewrite <- app_assoc. pose proof (flex_put t w (s ++ r) P (apart_tail t s r A T)) as F.
    pose proof (put_nonempty t w P) as N.
    rewrite (toks_step in_expression (w ++ s ++ r) _ _ _ ltac:(destruct w; [congruence|discriminate]) F).
    rewrite skipn_len. cbn [after]. rewrite (IH r T). reflexivity.
Qed.

(** ** Files *)

Lemma toks_rest l s : no_newline l -> toks in_comment (l ++ newline :: s) = STRING (string_of_list_ascii l) :: toks INITIAL s.
Proof.
  intro L.
  assert (SP : span (fun c => negb (is_newline c)) (l ++ newline :: s) = List.length l).
  { apply span_app; [revert L; apply Forall_impl; intros c ->; reflexivity|reflexivity]. }
  assert (F : flex in_comment (l ++ newline :: s) = (List.length l, ([STRING (string_of_list_ascii l)], Some INITIAL))).
  { unfold flex. rewrite SP, firstn_len. reflexivity. }
  rewrite (toks_step in_comment (l ++ newline :: s) _ _ _ ltac:(destruct l; discriminate) F). rewrite skipn_len. cbn [after app].
  rewrite toks_space; [reflexivity|split; discriminate|reflexivity].
Qed.
Lemma in_known k l : In k l -> In l [name_keys; line_keys; choice_keys; number_keys; ["POLE"%string]; choices] -> In k known.
Proof. intros K L. unfold known. rewrite !in_app_iff. cbn [In] in L. decompose [or] L; subst; auto 8. contradiction. Qed.
Lemma mode_check l m : forallb (fun k => match key_mode k, m with
    | INITIAL, INITIAL | in_comment_init, in_comment_init | in_keyword_token, in_keyword_token | in_pole, in_pole => true | _, _ => false end) l = true ->
  forall k, In k l -> key_mode k = m.
Proof. rewrite forallb_forall. intros H k I. specialize (H k I). destruct (key_mode k), m; try discriminate H; reflexivity. Qed.
Lemma mode_numbers k : In k number_keys -> key_mode k = INITIAL.
Proof. apply mode_check. vm_compute. reflexivity. Qed.
Lemma mode_choices k : In k choice_keys -> key_mode k = in_keyword_token.
Proof. apply mode_check. vm_compute. reflexivity. Qed.
Lemma mode_choice k : In k choices -> key_mode k = INITIAL.
Proof. apply mode_check. vm_compute. reflexivity. Qed.
Lemma mode_line k : In k line_keys -> key_mode k = in_comment_init.
Proof. apply mode_check. vm_compute. reflexivity. Qed.
Lemma comment_tail q s : comment q -> match s with [] => True | c :: _ => c = newline end -> line_tail (q ++ s).
Proof.
  intros [->|(l & -> & _)] H; [|cbn; auto]. destruct s as [|c s]; [exact I|]. cbn. auto.
Qed.

Theorem laid_tokens ts s : laid ts s -> file_tokens s = ts.
Proof.
  rewrite file_toks.
  induction 1 as [g q G Q|k g w ts s G K W E _ IH|k g w g' ts s G K W G' _ IH|k g w g' es e q ts s G K W G' O Q _ IH
    |k g w g' es e q G K W G' O Q|k g w g' b v ts s G W G' B K V E _ IH|k g w g' g'' n ts s G K W G' G'' NG F N1 N2 N3 E _ IH
    |k g w g' l ts s G K W G' L _ IH|k g w g' g'' v ts s G W G' G'' V E _ IH].
  - rewrite toks_gap; [|repeat split; discriminate|exact G]. apply toks_comment; [repeat split; discriminate|exact Q].
  - rewrite toks_gap; [|repeat split; discriminate|exact G].
    rewrite (toks_keyword k w s); [|apply (in_known k _ K); cbn; auto 8|exact W|exact E].
    rewrite (mode_choice k K), IH. reflexivity.
  - rewrite toks_head with (k := k); auto; [|apply (in_known k _ K); cbn; auto 8|rewrite (mode_choices k K); cbn; auto].
    rewrite (mode_choices k K). cbn [colon_next]. now rewrite IH.
  - rewrite toks_head with (k := k); auto; [|apply (in_known k _ K); cbn; auto 8|rewrite (mode_numbers k K); cbn; auto].
    rewrite (mode_numbers k K). cbn [colon_next].
    rewrite (toks_on_line es e O (q ++ newline :: s)) by (now apply comment_tail).
    rewrite toks_expression_comment by (auto; reflexivity). rewrite toks_line_end, IH. reflexivity.
  - rewrite toks_head with (k := k); auto; [|apply (in_known k _ K); cbn; auto 8|rewrite (mode_numbers k K); cbn; auto].
    rewrite (mode_numbers k K). cbn [colon_next].
    rewrite (toks_on_line es e O q) by (rewrite <- (app_nil_r q); now apply comment_tail).
    rewrite <- (app_nil_r q). rewrite toks_expression_comment by (auto; exact I). rewrite toks_nil, app_nil_r. reflexivity.
  - rewrite toks_head with (k := "MINNAERT"%string); auto; [|apply (in_known _ number_keys); cbn; auto 50|cbn; auto].
    change (colon_next (key_mode "MINNAERT")) with in_expression. rewrite toks_blanks by exact B.
    assert (F : flex in_expression (v ++ s) = (List.length v, ([KEY k], Some INITIAL))).
    { unfold flex. rewrite (match_leave k v s K V E), firstn_len. cbn [expression_effect give]. unfold text_string, chars.
      now rewrite string_of_list_ascii_of_string. }
    assert (NV : v <> []) by (intros ->; cbn in K; destruct K as [<-|[<-|[]]]; discriminate V).
    rewrite (toks_step in_expression (v ++ s) _ _ _ ltac:(destruct v; [congruence|discriminate]) F), skipn_len. cbn [after app].
    now rewrite IH.
  - rewrite (toks_name_head k w g g' (g'' ++ n ++ s) K G W G').
    + rewrite toks_white; [|split; discriminate|exact G'']. rewrite toks_name by assumption. now rewrite IH.
    + destruct G'' as [|c g'' H _]; [congruence|]. cbn [app]. apply space_facts, white_space, H.
  - rewrite toks_head with (k := k); auto; [|apply (in_known k _ K); cbn; auto 8|rewrite (mode_line k K); cbn; auto].
    rewrite (mode_line k K). cbn [colon_next]. rewrite toks_rest by exact L. now rewrite IH.
  - rewrite toks_head with (k := "POLE"%string); auto; [|apply (in_known _ ["POLE"%string]); cbn; auto 8|cbn; auto].
    change (colon_next (key_mode "POLE")) with in_pole. rewrite toks_gap; [|repeat split; discriminate|exact G''].
    assert (P : exists p, In (p, k) [("N", "N"); ("NORTH", "N"); ("S", "S"); ("SOUTH", "S")]%string /\ in_any_case p v).
    { destruct V as [[-> [V|V]]|[-> [V|V]]]; eexists; (split; [|exact V]); cbn; auto. }
    destruct P as (p & P & V').
    assert (NV : v <> []) by (intros ->; cbn in P; decompose [or] P; try contradiction; match goal with X : (_, _) = (_, _) |- _ => injection X as <- <- end; discriminate V').
    rewrite (toks_step in_pole (v ++ s) _ _ _ ltac:(destruct v; [congruence|discriminate]) (flex_pole p k v s P V' E)), skipn_len. cbn [after app].
    now rewrite IH.
Qed.

(** ** Joined files *)
Lemma gap_app a b : gap a -> gap b -> gap (a ++ b).
Proof.
  intros A B. induction A as [|c g C G IH|l g L G IH]; [exact B|cbn; now constructor|].
  cbn [app]. rewrite <- app_assoc. cbn [app]. now constructor.
Qed.
Lemma laid_gap a ts s : gap a -> laid ts s -> laid ts (a ++ s).
Proof.
  intros A L. destruct L; rewrite app_assoc;
    [apply laid_end|apply laid_choice|apply laid_choices|apply laid_numbers|apply laid_last_numbers|apply laid_minnaert|apply laid_name
    |apply laid_line|apply laid_pole]; auto using gap_app.
Qed.
Lemma comment_gap q : comment q -> gap (q ++ [newline]).
Proof.
  intros [->|(l & -> & L)].
  - apply gap_white; [right; reflexivity|apply gap_end].
  - apply (gap_comment l []); [exact L|apply gap_end].
Qed.
Lemma laid_join ts1 s1 ts2 s2 : laid ts1 s1 -> laid ts2 s2 -> laid (ts1 ++ ts2) (s1 ++ newline :: s2).
Proof.
  intros L1 L2. induction L1; cbn [app]; rewrite <- ?app_assoc; cbn [app]; rewrite <- ?app_assoc; cbn [app]; rewrite <- ?app_assoc; cbn [app];
    rewrite <- ?app_assoc; cbn [app].
  - change (g ++ q ++ newline :: s2) with (g ++ q ++ [newline] ++ s2). rewrite (app_assoc q). rewrite app_assoc.
    apply laid_gap; [|exact L2]. apply gap_app; [assumption|now apply comment_gap].
  - apply laid_choice; auto. destruct s; [reflexivity|assumption].
  - apply laid_choices; auto.
  - apply laid_numbers; auto.
  - apply laid_numbers; auto.
  - apply laid_minnaert; auto. destruct s; [reflexivity|assumption].
  - apply laid_name; auto. destruct s; [reflexivity|assumption].
  - apply laid_line; auto.
  - apply laid_pole; auto. destruct s; [reflexivity|assumption].
Qed.
