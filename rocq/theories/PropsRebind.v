(** C38 and C40: exactly when a self-collision barrier that is bound again fits its new model. *)
From Verif Require Import Base Lin LinFacts Mjx Typing Component SpecComponent SpecHistory SpecCollision SpecWrap Witness BindCases RebindFacts.
Open Scope Z_scope.

(** ** C40 *)
(** A default barrier bound to [m1] and then to a model [m2] with at least as many
    bodies binds without error.  It checks the pairs of the new model exactly if no
    geom of a body beyond the number of bodies of [m1] takes part in a pair that is
    to be checked.  Its number of rows is the one asked for, or else the number of
    pairs of [m1]. *)
Theorem C40_default_adapts_iff name gain gf sdg dm er n c os os' m1 m2 ex1 ex2 :
  new_self_collision name gain gf sdg dm [] er n = Ok c -> Forall no_bind os -> Forall no_bind os' ->
  wf_bodies m1 -> wf_names m1 -> wf_bodies m2 -> wf_names m2 -> (0 < m_nbody m1 <= m_nbody m2)%nat ->
  Forall2 (refers2 m1) er ex1 -> Forall2 (refers2 m2) er ex2 ->
  let again := snd (update_model m2 (history os' (snd (update_model m1 (history os c))))) in
  fst (update_model m2 (history os' (snd (update_model m1 (history os c))))) = Ok tt /\
  ((exists ps, checks again ps /\ checks_exactly m2 (all_bodies m2) ex2 ps) <->
   forall g1 g2, to_check m2 (all_bodies m2) ex2 g1 g2 -> ent (m_geom_bodyid m2) g1 < Z.of_nat (m_nbody m1) /\ ent (m_geom_bodyid m2) g2 < Z.of_nat (m_nbody m1)) /\
  (n <> -1 -> a_dim (c_at again) = n) /\
  (n = -1 -> forall ps1, checks_exactly m1 (all_bodies m1) ex1 ps1 -> a_dim (c_at again) = Z.of_nat (List.length ps1)).
Proof. exact (adapts_iff name gain gf sdg dm er n c os os' m1 m2 ex1 ex2). Qed.
Print Assumptions C40_default_adapts_iff.
(** Bound first to the arm of two links, the barrier checks no pair of the arm of
    four, although geoms 0 and 2 are to be checked; bound first to the arm of four it
    checks all three. *)
Example C40_iff_case : exists c, new_self_collision "self" (tscalar 1) None 0%R 0%R [] [] (-1) = Ok c /\
  (0 < m_nbody arm2 <= m_nbody arm4)%nat /\ checks (snd (update_model arm4 (snd (update_model arm2 c)))) [] /\
  to_check arm4 (all_bodies arm4) [] 0 2 /\ ent (m_geom_bodyid arm4) 2 = Z.of_nat (m_nbody arm2) /\
  checks (snd (update_model arm4 (snd (update_model arm4 c)))) [(0, 2); (0, 3); (1, 3)].
Proof.
  eexists. split; [reflexivity|]. split; [cbn; lia|]. split; [do 2 eexists; split; [vm_compute; reflexivity|reflexivity]|].
  split. { exists 1, 3. repeat split; try (cbn; tauto); try (cbn; lia); try (vm_compute; discriminate). left. vm_compute. discriminate. }
  split; [reflexivity|]. do 2 eexists; split; [vm_compute; reflexivity|reflexivity].
Qed.

(** Bound again to a model with fewer bodies, a default barrier raises IndexError. *)
Theorem C40_fewer_bodies_raise name gain gf sdg dm er n c os os' m1 m2 ex1 ex2 :
  new_self_collision name gain gf sdg dm [] er n = Ok c -> Forall no_bind os -> Forall no_bind os' ->
  wf_bodies m1 -> wf_names m1 -> wf_bodies m2 -> wf_names m2 -> (0 < m_nbody m2 < m_nbody m1)%nat ->
  Forall2 (refers2 m1) er ex1 -> Forall2 (refers2 m2) er ex2 ->
  fst (update_model m2 (history os' (snd (update_model m1 (history os c))))) = Err IndexError.
Proof. exact (smaller_raises name gain gf sdg dm er n c os os' m1 m2 ex1 ex2). Qed.
Print Assumptions C40_fewer_bodies_raise.
Example C40_fewer_case : exists c, new_self_collision "self" (tscalar 1) None 0%R 0%R [] [(CBInt 0, CBStr "tip")]%string (-1) = Ok c /\
  wf_bodies arm4 /\ wf_names arm4 /\ wf_bodies arm2 /\ wf_names arm2 /\ (0 < m_nbody arm2 < m_nbody arm4)%nat /\
  Forall2 (refers2 arm4) [(CBInt 0, CBStr "tip")]%string [(0, 4)] /\ Forall2 (refers2 arm2) [(CBInt 0, CBStr "tip")]%string [(0, 2)] /\
  fst (update_model arm4 c) = Ok tt /\ fst (update_model arm2 c) = Ok tt /\ fst (update_model arm2 (snd (update_model arm4 c))) = Err IndexError.
Proof.
  eexists. split; [reflexivity|]. split; [apply chain_bodies|]. split; [apply chain_names|]. split; [apply chain_bodies|]. split; [apply chain_names|]. split; [cbn; lia|].
  split. { constructor; [|constructor]. split; constructor; try (unfold is_body; cbn; lia). right; now left. }
  split. { constructor; [|constructor]. split; constructor; try (unfold is_body; cbn; lia). right; now left. }
  repeat split; vm_compute; reflexivity.
Qed.

(** ** C38 *)
(** "-1 means all pairs" is settled by the first model: after any further calls,
    also bindings that fail, every successful binding leaves as many rows as the
    first model has pairs.  That is the number of pairs now checked exactly if the
    two models have equally many. *)
Theorem C38_minus_one_is_settled_by_the_first_model name gain gf sdg dm bs er c os os' m1 m2 ps1 ps2 :
  new_self_collision name gain gf sdg dm bs er (-1) = Ok c -> Forall no_bind os -> Forall api_op os' ->
  let first := snd (update_model m1 (history os c)) in let again := snd (update_model m2 (history os' first)) in
  fst (update_model m1 (history os c)) = Ok tt -> checks first ps1 -> fst (update_model m2 (history os' first)) = Ok tt -> checks again ps2 ->
  a_dim (c_at first) = Z.of_nat (List.length ps1) /\ a_dim (c_at again) = Z.of_nat (List.length ps1) /\
  (a_dim (c_at again) = Z.of_nat (List.length ps2) <-> List.length ps1 = List.length ps2).
Proof. exact (rows_of_first name gain gf sdg dm bs er c os os' m1 m2 ps1 ps2). Qed.
Print Assumptions C38_minus_one_is_settled_by_the_first_model.
(** The arm of two links has no pair of the three bodies, the arm of four one: no row is left for it. *)
Example C38_settled_case : exists c, new_self_collision "self" (tscalar 1) None 0%R 0%R [CBInt 0; CBInt 1; CBStr "tip"]%string [] (-1) = Ok c /\
  fst (update_model arm2 c) = Ok tt /\ checks (snd (update_model arm2 c)) [] /\
  fst (update_model arm4 (snd (update_model arm2 c))) = Ok tt /\ checks (snd (update_model arm4 (snd (update_model arm2 c)))) [(0, 3)] /\
  a_dim (c_at (snd (update_model arm4 (snd (update_model arm2 c))))) = 0.
Proof.
  eexists. split; [reflexivity|]. split; [vm_compute; reflexivity|]. split; [do 2 eexists; split; [vm_compute; reflexivity|reflexivity]|].
  split; [vm_compute; reflexivity|]. split; [do 2 eexists; split; [vm_compute; reflexivity|reflexivity]|vm_compute; reflexivity].
Qed.
