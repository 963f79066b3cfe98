(** C58 and C59: the parameters of a map. *)
From Coq Require Import List ZArith Bool String.
From Flocq Require Import BinarySingleNaN.
From Verif Require Import Base Flt Params_Model Params_Spec Params_Proofs.
Import ListNotations.
Open Scope Z_scope.

(** C58: whatever the user supplied stays, and what they did not supply comes
    from the first plane that supplies it, for any calls and any planes. *)
Theorem C58_user_values_stay : forall user planes, Forall (fun x => 0 <= fst x) planes ->
  exists r, bind (supplied 0 user) (fun u => merge_all u planes) = Ok r /\ resolved user (map snd planes) r.
Proof. exact merges_resolve. Qed.
Print Assumptions C58_user_values_stay.

(** The same for the whole map command. *)
Theorem C58_command : forall user sources, Forall standard_source sources ->
  exists r, bind (supplied 0 user) (populate_map_parameters sources) = Ok r /\
    resolved user (map source_settings sources) r.
Proof. exact command_resolves. Qed.
Print Assumptions C58_command.
Example C58_case :
  let user := [give_str k_author "A"; give_str k_origin ""; give_bitpix 7] in
  let planes := [(1, [give_str k_author "B"; give_str k_origin "O"; give_comment "c"]);
                 (2, [give_str k_object "Jupiter"; give_bitpix 16; give_comment "d"]); (3, [give_bitpix 32])] in
  exists r, bind (supplied 0 user) (fun u => merge_all u planes) = Ok r /\
    p_str r k_author = "A"%string /\ p_str r k_origin = ""%string /\ p_str r k_object = "Jupiter"%string /\
    p_bitpix r = 16 /\ p_comments r = ["c"; "d"]%string.
Proof.
  intros user planes.
  destruct (C58_user_values_stay user planes) as (r & E & S & _ & _ & B & C & _).
  { repeat constructor; discriminate. }
  exists r. split; [exact E|]. rewrite !S, B, C. repeat split.
Qed.

(** C59 fails: the first plane (and the last photo of a mosaic) decides. *)
Theorem C59_refuted :
  exists a b, standard a /\ standard b /\
    (exists r, bind (supplied 0 []) (populate_map_parameters [photo a; photo b]) = Ok r /\ ~ holds (p_bitpix r) (h_bitpix b)) /\
    (exists r r', bind (supplied 0 []) (populate_map_parameters [photo a; photo b]) = Ok r /\
       bind (supplied 0 []) (populate_map_parameters [photo b; photo a]) = Ok r' /\ p_bitpix r <> p_bitpix r') /\
    (exists r, bind (supplied 0 []) (populate_map_parameters [mosaic [b; a]]) = Ok r /\ ~ holds (p_bitpix r) (h_bitpix b)).
Proof. exact first_plane_wins_refuted. Qed.
Print Assumptions C59_refuted.

(** It holds when all planes have one data type. *)
Theorem C59_agreeing_partial : forall user b h hs, last_of bitpix_of user = None ->
  In b [8; 16; 32; 64; -32; -64] -> Forall (fun g => h_bitpix g = b) (h :: hs) ->
  exists r, bind (supplied 0 user) (populate_map_parameters (map photo (h :: hs))) = Ok r /\
    get_bitpix r = Ok b /\ Forall (fun g => holds b (h_bitpix g)) (h :: hs).
Proof. exact agreeing_photos. Qed.
Print Assumptions C59_agreeing_partial.
Example C59_agreeing_case : exists r,
  bind (supplied 0 []) (populate_map_parameters [photo (plain (-32)); photo (plain (-32))]) = Ok r /\ get_bitpix r = Ok (-32).
Proof.
  destruct (C59_agreeing_partial [] (-32) (plain (-32)) [plain (-32)] eq_refl) as (r & E & B & _).
  - simpl. tauto.
  - repeat constructor.
  - exists r. auto.
Qed.

(** And for one merge into parameters that are not the user's, when both types
    are integers or both are floating point. *)
Theorem C59_rule_partial : forall n l m k, 0 < n -> 0 <= m ->
  forall a b, last_of bitpix_of l = Some a -> last_of bitpix_of k = Some b -> (0 < a <-> 0 < b) ->
  exists r, bind (supplied n l) (fun t => bind (supplied m k) (fun p => bind (merge t p) (fun '(t, _) => Ok t))) = Ok r /\
    holds (p_bitpix r) a /\ holds (p_bitpix r) b /\ (p_bitpix r = a \/ p_bitpix r = b).
Proof. exact rule_widest. Qed.
Print Assumptions C59_rule_partial.
Example C59_rule_case : exists r,
  bind (supplied 1 [give_bitpix 8]) (fun t => bind (supplied 2 [give_bitpix 32]) (fun p =>
    bind (merge t p) (fun '(t, _) => Ok t))) = Ok r /\ p_bitpix r = 32.
Proof.
  assert (M : 0 <= 2) by discriminate. assert (S : 0 < 8 <-> 0 < 32) by (split; reflexivity).
  destruct (C59_rule_partial 1 [give_bitpix 8] 2 [give_bitpix 32] eq_refl M 8 32 eq_refl eq_refl S)
    as (r & E & _ & H & [B|B]).
  - exfalso. rewrite B in H. destruct H as [[_ H]|[_ H]]; [now apply H|discriminate].
  - exists r. auto.
Qed.
