(** C90: a mask drops axes and nothing else. *)
From Verif Require Import Base Lin LinFacts Mjx Typing Component Problem SpecComponent SpecJoint SpecHistory SpecProblem Rot SpecConf Conf FrameJac JaxComponents LocalIK SpecQP SpecSolve SpecMotion SpecTree SpecShape SpecFit SpecValue SpecDeriv SpecMask.
From Verif Require Import Witness CompThms2 ConfCases ValueCases FitFacts FitCases DerivCases MaskFacts MaskFacts2 MaskCases.
Open Scope R_scope.

(** The value of the masked task: the selected entries of the unmasked one's. *)
Theorem C90_masked_value L as_ j j' d e : masked as_ j j' -> j_model j' = j_model j -> call L j d = Ok e -> call L j' d = Ok (coords as_ e).
Proof. exact (masked_value L as_ j j' d e). Qed.
Print Assumptions C90_masked_value.
(** The Jacobian of the masked task: the selected rows.  First for frame and joint tasks,
    then for tasks whose Jacobian comes from automatic differentiation. *)
Theorem C90_masked_jacobian L as_ j j' d J : masked as_ j j' -> j_model j' = j_model j -> ~ automatic j -> jacobian L j d = Ok J -> jacobian L j' d = Ok (rows_at as_ J).
Proof. exact (masked_jacobian L as_ j j' d J). Qed.
Print Assumptions C90_masked_jacobian.
Theorem C90_masked_jacobian_automatic L as_ j j' q J : let m := j_model j in masked as_ j j' -> j_model j' = m -> automatic j -> sound_jac (l_jacrev L) -> smooth L j 3 q -> kinematic L j -> kinematic L j' ->
  List.length q = m_nq m -> d_qpos (update L m q) = q -> jacobian L j (update L m q) = Ok J -> jacobian L j' (update L m q) = Ok (rows_at as_ J).
Proof. exact (masked_jacobian_auto L as_ j j' q J). Qed.
Print Assumptions C90_masked_jacobian_automatic.
(** In the objective the masked task is the unmasked one with weight zero on the dropped axes. *)
Theorem C90_same_cost L nv as_ j j' q : let d := update L (j_model j) q in masked as_ j j' -> j_model j' = j_model j -> weighs_selected as_ j j' -> fits L nv d j ->
  (automatic j -> sound_jac (l_jacrev L) /\ smooth L j 3 q /\ kinematic L j /\ kinematic L j' /\ List.length q = m_nq (j_model j) /\ d_qpos d = q) ->
  forall v x, cost_of L d j v x <-> cost_of L d j' v x.
Proof. exact (masked_same_cost L nv as_ j j' q). Qed.
Print Assumptions C90_same_cost.
(** So masking axes that have no weight does not change which velocities are best. *)
Theorem C90_same_best_velocities L nv q pd pd' : masks_idle pd pd' -> sound_jac (l_jacrev L) -> List.length q = m_nq (jd_model pd) -> Forall (fun j => j_model j = jd_model pd) (comps_of pd) -> Forall (fun j => j_model j = jd_model pd) (comps_of pd') ->
  let d := update L (jd_model pd) q in d_qpos d = q -> Forall (fits L nv d) (comps_of pd) ->
  Forall (fun j => automatic j -> smooth L j 3 q /\ kinematic L j) (comps_of pd) -> Forall (fun j => automatic j -> kinematic L j) (comps_of pd') ->
  forall v, best L d pd v <-> best L d pd' v.
Proof. exact (masked_best L nv q pd pd'). Qed.
Print Assumptions C90_same_best_velocities.

(** A crank whose tip is asked for x and z only: by mask, or by cost 0 on y. *)
Example C90_case D q : sound_jac D -> List.length q = 1%nat -> let L := crank D in
  masked [0; 2]%nat reach_all reach_xz /\ weighs_selected [0; 2]%nat reach_all reach_xz /\ automatic reach_all /\ smooth L reach_all 3 q /\ kinematic L reach_all /\ kinematic L reach_xz /\
  masks_idle (crank_pd reach_all) (crank_pd reach_xz) /\ Forall (fits L 1 (update L (chain [JHinge]) q)) (comps_of (crank_pd reach_all)) /\ d_qpos (update L (chain [JHinge]) q) = q /\
  call L reach_all (update L (chain [JHinge]) q) = Ok [cos (nth 0 q 0) - 1; sin (nth 0 q 0) - 2; 0 - 3].
Proof.
  intros HD Hq. cbv zeta. destruct (reach_kinematic D) as [K1 K2]. split; [exact reach_masked|]. split; [exact reach_weights|]. split; [exact I|]. split; [now apply reach_smooth|]. split; [exact K1|]. split; [exact K2|].
  split; [split; [reflexivity|split; [reflexivity|split; [reflexivity|constructor; [right; exists [0; 2]%nat; split; [reflexivity|split; [exact reach_masked|exact reach_weights]]|constructor]]]]|].
  split; [constructor; [now apply reach_fits|constructor]|]. split; reflexivity.
Qed.
(** A masked joint task on two hinges. *)
Example C90_joint_case : let j := compiled [OpModel arm2; OpTargetQ (tvec [1; 2])] (unwrap (new_joint_task "posture" (tvec [0; 3]) (tscalar 2) None 0 None) none) in
  let j' := compiled [OpModel arm2; OpTargetQ (tvec [2])] (unwrap (new_joint_task "posture" (tvec [3]) (tscalar 2) None 0 (Some [0; 1]%Z)) none) in
  masked [1]%nat j j' /\ weighs_selected [1]%nat j j' /\ ~ automatic j /\ j_model j' = j_model j.
Proof.
  assert (E : forall fm c, new_joint_task "posture" (tvec c) (tscalar 2) None 0 fm = Ok (mkC (mkA "posture" None (tscalar 2) (fun x => x) (-1) None [] (XTask (tvec c) 0 (TJoint (mkJT fm None None)))) true None)).
  { intros fm c. unfold new_joint_task, init_task. cbn. destruct (Rlt_dec 0 0); [lra|]. reflexivity. }
  rewrite !E. cbv zeta. cbn [unwrap]. split; [|split; [|split; [|reflexivity]]].
  - apply (ms_joint _ _ _ [0; 1]%Z [1; 2]); [| |reflexivity| | ].
    + exists "posture"%string, (tvec [0; 3]), (tscalar 2), None, 0. eexists. exists [OpModel arm2; OpTargetQ (tvec [1; 2])]. split; [apply E|]. split; [constructor; [apply sound_wf, chain_sound|constructor; [exact I|constructor]]|]. split; [cbn -[update_model]; split; [vm_compute; reflexivity|repeat split]|vm_compute; reflexivity].
    + exists "posture"%string, (tvec [3]), (tscalar 2), None, 0. eexists. exists [OpModel arm2; OpTargetQ (tvec [2])]. split; [apply E|]. split; [constructor; [apply sound_wf, chain_sound|constructor; [exact I|constructor]]|]. split; [cbn -[update_model]; split; [vm_compute; reflexivity|repeat split]|vm_compute; reflexivity].
    + do 3 eexists. vm_compute. reflexivity.
    + do 3 eexists. vm_compute. reflexivity.
  - split; [reflexivity|]. split; [reflexivity|]. do 4 eexists. split; [vm_compute; reflexivity|]. split; [vm_compute; reflexivity|].
    intros a b H. destruct a as [|[|a]], b as [|[|b]]; cbn; try reflexivity; try (destruct a; reflexivity); try (destruct b; reflexivity); exfalso; apply H; cbn; tauto.
  - intros A. exact A.
Qed.
