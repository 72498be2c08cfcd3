(** A masked and an unmasked task on the same robot. *)
From Verif Require Import Base Lin LinFacts Mjx Typing Component Problem SpecComponent SpecJoint SpecHistory SpecProblem Rot SpecConf Conf FrameJac JaxComponents LocalIK SpecQP SpecSolve SpecMotion SpecTree SpecShape SpecFit SpecValue SpecDeriv SpecMask.
From Verif Require Import Witness CompThms2 ConfCases ValueCases MotionFacts2 ConfFacts3 ConfFacts4 FitFacts FitCases DerivFacts DerivThms DerivThms2 DerivCases.
Open Scope R_scope.

(** Position of the crank, height and sideways: the unmasked task has cost 0 on y, the
    masked one has no y at all. *)
Definition reach_all : jaxc := compiled [OpTargetPos (tvec [1; 2; 3]); OpCost (tvec [1; 0; 1]); OpModel (chain [JHinge])] (pos_comp None).
Definition reach_xz : jaxc := compiled [OpTargetPos (tvec [1; 3]); OpCost (tvec [1; 1]); OpModel (chain [JHinge])] (pos_comp (Some [1; 0; 1]%Z)).
Lemma reach_masked : masked [0; 2]%nat reach_all reach_xz.
Proof.
  apply (ms_position _ _ _ (Some (mvec [1; 0; 1]%Z)) "tip" OBody [1; 2; 3]); [| |exact I|cbn; lia|reflexivity| | ].
  - exists "reach"%string, (tscalar 1), (tscalar 2), None, 0, (pos_comp None). split; [exact (pos_comp_new None)|].
    eapply compiled_is; [reflexivity|constructor; [exact I|constructor; [exact I|constructor; [apply chain_sound|constructor]]]|split; [exact I|split; [exact I|split; [vm_compute; reflexivity|exact I]]]|eexists; vm_compute; reflexivity].
  - exists "reach"%string, (tscalar 1), (tscalar 2), None, 0, (pos_comp (Some [1; 0; 1]%Z)). split; [exact (pos_comp_new (Some [1; 0; 1]%Z))|].
    eapply compiled_is; [reflexivity|constructor; [exact I|constructor; [exact I|constructor; [apply chain_sound|constructor]]]|split; [exact I|split; [exact I|split; [vm_compute; reflexivity|exact I]]]|eexists; vm_compute; reflexivity].
  - right. do 4 eexists. vm_compute. reflexivity.
  - right. do 4 eexists. vm_compute. reflexivity.
Qed.
Lemma reach_weights : weighs_selected [0; 2]%nat reach_all reach_xz.
Proof.
  split; [reflexivity|]. split; [reflexivity|]. do 4 eexists. split; [vm_compute; reflexivity|]. split; [vm_compute; reflexivity|].
  intros a b H. destruct a as [|[|[|a]]], b as [|[|[|b]]]; cbn; try reflexivity; try (destruct a; reflexivity); try (destruct b; reflexivity); exfalso; apply H; cbn; tauto.
Qed.
Lemma reach_call D d : call (crank D) reach_all d = call (crank D) (spot [JHinge] [1; 2; 3]) d.
Proof. reflexivity. Qed.
Lemma reach_smooth D q : List.length q = 1%nat -> smooth (crank D) reach_all 3 q.
Proof. intros Hq. exact (crank_smooth D [1; 2; 3] q eq_refl Hq). Qed.
Lemma reach_kinematic D : kinematic (crank D) reach_all /\ kinematic (crank D) reach_xz.
Proof. split; (apply kinematic_position; [apply rig_positions|]; left; do 5 eexists; vm_compute; reflexivity). Qed.
Definition crank_pd (j : jaxc) : jdata := mkJD (chain [JHinge]) [-1] [1] [("reach"%string, j)].
Lemma reach_fits D q : sound_jac D -> List.length q = 1%nat -> fits (crank D) 1 (update (crank D) (chain [JHinge]) q) reach_all.
Proof.
  intros HD Hq. destruct (automatic_scalar (crank D) reach_all 3 q [0] HD) as (J & EJ & MJ & _).
  - exact I.
  - apply reach_kinematic.
  - apply sound_wf, (chain_sound [JHinge]).
  - now apply reach_smooth.
  - exact Hq.
  - reflexivity.
  - apply rig_scalars.
  - reflexivity.
  - exists J, (value_at (crank D) reach_all q). split; [exact EJ|]. split; [reflexivity|]. split; [exact MJ|]. split; [reflexivity|]. cbn. split; repeat constructor.
Qed.
