(** C37 and C40: what does hold of body references and of re-binding. *)
From Verif Require Import Base Lin LinFacts Mjx Typing Component SpecComponent SpecHistory SpecCollision SpecWrap Witness WrapFacts WrapCases.
Open Scope Z_scope.

(** ** C37 *)
(** The full statement, that every reference which is no body of the model makes
    binding raise, is refuted in PropsBinding.  What holds: every reference is
    turned into a number (an unknown name into -1), negative numbers select
    bodies counted from the end, exclusions compare numbers, and the pairs
    checked are exactly those of the bodies selected this way. *)
Theorem C37_references_as_numbers_partial name gain gf sdg dm bs er n c os m zs ex :
  new_self_collision name gain gf sdg dm bs er n = Ok c -> bs <> [] -> Forall api_op os ->
  wf_bodies m -> wf_names m -> Forall2 (number m) bs zs -> Forall (fun z => exists b, picks m z b) zs -> Forall2 (number2 m) er ex ->
  exists ps, fst (update_model m (history os c)) = Ok tt /\ checks (snd (update_model m (history os c))) ps /\ NoDup ps /\
    forall g1 g2, In (g1, g2) ps <-> g1 < g2 /\ to_check_numbers m zs ex g1 g2.
Proof. exact (references name gain gf sdg dm bs er n c os m zs ex). Qed.
Print Assumptions C37_references_as_numbers_partial.
(** "elbwo" is unknown and stands for the last body (4, geom 3); excluding body 1
    against "tip" (also body 4) does not reach it. *)
Example C37_case : exists c, new_self_collision "self" (tscalar 1) None 0%R 0%R [CBInt 1; CBStr "elbwo"; CBInt (-3)]%string [(CBInt 1, CBStr "tip")]%string (-1) = Ok c /\
  wf_bodies arm4 /\ wf_names arm4 /\ Forall2 (number arm4) [CBInt 1; CBStr "elbwo"; CBInt (-3)]%string [1; -1; -3] /\
  Forall (fun z => exists b, picks arm4 z b) [1; -1; -3] /\ Forall2 (number2 arm4) [(CBInt 1, CBStr "tip")]%string [(1, 4)] /\
  checks (snd (update_model arm4 c)) [(0, 3); (1, 3)].
Proof. exact unknown_case. Qed.

(** An integer that selects no body, compared with any other listed body,
    makes binding raise. *)
Theorem C37_out_of_range_raises_partial name gain gf sdg dm bs er n c os m zs ex z1 z2 :
  new_self_collision name gain gf sdg dm bs er n = Ok c -> bs <> [] -> Forall api_op os ->
  wf_bodies m -> wf_names m -> Forall2 (number m) bs zs -> Forall2 (number2 m) er ex ->
  In z1 zs -> In z2 zs -> z1 <> z2 -> ~ In (z1, z2) ex -> ~ In (z2, z1) ex -> (forall b, ~ picks m z1 b) ->
  fst (update_model m (history os c)) = Err IndexError.
Proof. exact (out_of_range name gain gf sdg dm bs er n c os m zs ex z1 z2). Qed.
Print Assumptions C37_out_of_range_raises_partial.
Example C37_out_of_range_case : exists c, new_self_collision "self" (tscalar 1) None 0%R 0%R [CBInt 1; CBInt 5] [] (-1) = Ok c /\
  Forall2 (number arm4) [CBInt 1; CBInt 5] [1; 5] /\ (forall b, ~ picks arm4 5 b) /\ fst (update_model arm4 c) = Err IndexError.
Proof. exact out_of_range_case. Qed.

(** A reference that is neither an integer nor a string makes binding raise. *)
Theorem C37_not_a_reference_raises_partial name gain gf sdg dm bs er n c os m :
  new_self_collision name gain gf sdg dm bs er n = Ok c -> (2 <= List.length bs)%nat -> Forall api_op os ->
  In CBOther bs -> exists e, fst (update_model m (history os c)) = Err e /\ (e = ValueError \/ e = IndexError).
Proof. exact (not_a_reference name gain gf sdg dm bs er n c os m). Qed.
Print Assumptions C37_not_a_reference_raises_partial.
Theorem C37_excluded_not_a_reference_raises_partial name gain gf sdg dm bs er n c os m :
  new_self_collision name gain gf sdg dm bs er n = Ok c -> bs <> [] -> Forall api_op os ->
  (exists x, In (CBOther, x) er \/ In (x, CBOther) er) -> fst (update_model m (history os c)) = Err ValueError.
Proof. exact (not_a_reference_excluded name gain gf sdg dm bs er n c os m). Qed.
Print Assumptions C37_excluded_not_a_reference_raises_partial.
Example C37_not_a_reference_case : exists c, new_self_collision "self" (tscalar 1) None 0%R 0%R [CBInt 1; CBOther] [] (-1) = Ok c /\
  fst (update_model arm4 c) = Err ValueError.
Proof. exact not_a_reference_case. Qed.

(** ** C40 *)
(** A barrier given both a body list and a number of rows adapts to every model
    it is bound to, whatever it was bound to before. *)
Theorem C40_listed_bodies_adapt_partial name gain gf sdg dm bs er n c os m :
  new_self_collision name gain gf sdg dm bs er n = Ok c -> bs <> [] -> n <> -1 -> Forall api_op os ->
  forall ids ex, wf_bodies m -> wf_names m -> Forall2 (refers m) bs ids -> Forall2 (refers2 m) er ex ->
  exists ps, fst (update_model m (history os c)) = Ok tt /\ checks (snd (update_model m (history os c))) ps /\
    checks_exactly m ids ex ps /\ a_dim (c_at (snd (update_model m (history os c)))) = n.
Proof. exact (listed_rebound name gain gf sdg dm bs er n c os m). Qed.
Print Assumptions C40_listed_bodies_adapt_partial.
Example C40_listed_case : exists c, new_self_collision "self" (tscalar 1) None 0%R 0%R [CBInt 1; CBStr "tip"]%string [] 3 = Ok c /\
  Forall2 (refers arm2) [CBInt 1; CBStr "tip"]%string [1; 2] /\ Forall2 (refers arm4) [CBInt 1; CBStr "tip"]%string [1; 4] /\
  checks (snd (update_model arm4 (snd (update_model arm2 c)))) [(0, 3)] /\ a_dim (c_at (snd (update_model arm4 (snd (update_model arm2 c))))) = 3.
Proof. exact listed_case. Qed.
(** A default barrier, re-bound, checks the new model for the body ids of the
    first one and keeps the first one's number of rows: it adapts exactly when
    both agree.  Missing: models with more bodies, or with other pairs. *)
Theorem C40_default_bodies_frozen_partial name gain gf sdg dm er n c os os' m1 m2 ex1 ex2 :
  new_self_collision name gain gf sdg dm [] er n = Ok c -> Forall no_bind os -> Forall no_bind os' ->
  wf_bodies m1 -> wf_names m1 -> wf_bodies m2 -> wf_names m2 -> (0 < m_nbody m1 <= m_nbody m2)%nat ->
  Forall2 (refers2 m1) er ex1 -> Forall2 (refers2 m2) er ex2 ->
  let first := snd (update_model m1 (history os c)) in
  let again := snd (update_model m2 (history os' first)) in
  fst (update_model m2 (history os' first)) = Ok tt /\
  exists ps1 ps2, checks first ps1 /\ checks_exactly m1 (all_bodies m1) ex1 ps1 /\
    checks again ps2 /\ checks_exactly m2 (all_bodies m1) ex2 ps2 /\
    a_dim (c_at again) = if (n =? -1) then Z.of_nat (List.length ps1) else n.
Proof. exact (default_rebound name gain gf sdg dm er n c os os' m1 m2 ex1 ex2). Qed.
Print Assumptions C40_default_bodies_frozen_partial.
Example C40_default_case : exists c, new_self_collision "self" (tscalar 1) None 0%R 0%R [] [] (-1) = Ok c /\
  wf_bodies arm2 /\ wf_names arm2 /\ wf_bodies arm4 /\ wf_names arm4 /\ (0 < m_nbody arm2 <= m_nbody arm4)%nat /\
  checks (snd (update_model arm4 (snd (update_model arm4 c)))) [(0, 2); (0, 3); (1, 3)].
Proof. exact rebound_case. Qed.
