(** C110: the loss of the global solver is a sum over components; the order in which they
    are registered is irrelevant, to the local solver as well. *)
From Verif Require Import Base Lin LinFacts Mjx Typing Component Problem SpecComponent SpecJoint SpecHistory SpecTyping SpecCollision SpecTree SpecShape SpecContact SpecSelf SpecValue SpecProblem SpecQP SpecFit SpecTrace SpecSetup.
From Verif Require Import SetupFacts2 SetupCases Conf JaxComponents LocalIK GlobalIK SpecMotion SpecGlobal SpecGLoop SpecGSum GlobalFacts GlobalFacts2 GlobalCases GSumFacts FitCases QPCases MotionCases.
Open Scope R_scope.

Theorem C110_order_is_irrelevant L q pd pd' : jd_model pd' = jd_model pd -> Permutation (comps_of pd) (comps_of pd') ->
  forall y, loss_fn L q pd = Ok y <-> loss_fn L q pd' = Ok y.
Proof. exact (loss_order L q pd pd'). Qed.
Print Assumptions C110_order_is_irrelevant.

(** Any number of optimizer steps, from any state of any optimizer. *)
Theorem C110_same_steps L grad O sm dt pd pd' : reads_values grad -> jd_model pd' = jd_model pd -> Permutation (comps_of pd) (comps_of pd') -> has_loss L sm pd ->
  forall n q st q', gsteps L grad O sm dt pd n q st q' <-> gsteps L grad O sm dt pd' n q st q'.
Proof. exact (same_steps L grad O sm dt pd pd'). Qed.
Print Assumptions C110_same_steps.

(** Splitting the components in two splits the loss in two. *)
Theorem C110_parts_add_up L q pd js1 js2 : jd_comps pd = js1 ++ js2 ->
  forall y, loss_fn L q pd = Ok y <-> exists y1 y2, loss_fn L q (only pd js1) = Ok y1 /\ loss_fn L q (only pd js2) = Ok y2 /\ y = y1 + y2.
Proof. exact (loss_parts L q pd js1 js2). Qed.
Print Assumptions C110_parts_add_up.

(** Two programs that register the same components in different orders. *)
Theorem C110_registration_order m lo hi cs cs' L : sound_model m -> wf_tensor lo -> wf_tensor hi -> Forall constructed cs -> Forall (fun c => wf_arrays (c_at c)) cs ->
  limit_fits m lo -> limit_fits m hi -> NoDup (map (fun c => a_name (c_at c)) cs) -> Forall (fun c => exists d, suits m c d) cs -> Permutation cs cs' -> sound_lib L m ->
  exists pd pd', compiled_by (setup m lo hi cs) 0 pd /\ compiled_by (setup m lo hi cs') 0 pd' /\ Permutation (jd_comps pd) (jd_comps pd') /\
    forall q, let d := update L m q in
      (forall y, loss_fn L q pd = Ok y <-> loss_fn L q pd' = Ok y) /\
      (wf_data m d -> Forall (accepted L d) (comps_of pd) -> forall Q, assemble L m pd d = Ok Q ->
         exists Q', assemble L m pd' d = Ok Q' /\ forall v, optimal (m_nv m) Q v <-> optimal (m_nv m) Q' v).
Proof. exact (registration_order m lo hi cs cs' L). Qed.
Print Assumptions C110_registration_order.

Example C110_case : let back := only far_pd (rev (jd_comps far_pd)) in
  List.length (jd_comps far_pd) = 2%nat /\ jd_comps back <> jd_comps far_pd /\ Permutation (comps_of far_pd) (comps_of back) /\ has_loss even_lib one far_pd /\
  reads_values true_grad /\ sound_grad true_grad.
Proof.
  cbv zeta. split; [reflexivity|]. split. { intros H. apply (f_equal (map fst)) in H. vm_compute in H. discriminate. }
  split. { unfold comps_of, only. cbn [jd_comps]. apply Permutation_map, Permutation_rev. }
  split. { intros [|x [|]] H; try discriminate. eexists. apply far_loss. }
  split; [exact true_grad_values|exact true_grad_sound].
Qed.
Example C110_program_case : sound_model rig /\ Forall constructed [ee_task "tip"; jnt_range] /\ Forall (fun c => wf_arrays (c_at c)) [ee_task "tip"; jnt_range] /\
  NoDup (map (fun c => a_name (c_at c)) [ee_task "tip"; jnt_range]) /\ Forall (fun c => exists d, suits rig c d) [ee_task "tip"; jnt_range] /\ limit_fits rig (tscalar (-100)) /\
  Permutation [ee_task "tip"; jnt_range] [jnt_range; ee_task "tip"] /\ sound_lib rig_lib rig.
Proof.
  destruct setup_case as (A & B & C & _ & D & E & F & _). split; [exact A|]. split; [exact B|]. split; [exact C|]. split; [exact D|]. split; [exact E|]. split; [exact F|]. split; [constructor|exact rig_lib_sound].
Qed.
