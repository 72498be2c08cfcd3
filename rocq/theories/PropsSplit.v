(** C107: a task may be split into tasks over fewer axes.  C108: so may a position barrier. *)
From Verif Require Import Base Lin LinFacts Mjx Typing Component Problem SpecComponent SpecJoint SpecHistory SpecProblem Rot SpecConf Conf FrameJac JaxComponents LocalIK SpecQP SpecSolve SpecMotion SpecTree SpecShape SpecFit SpecValue SpecDeriv SpecMask SpecSplit.
From Verif Require Import Witness CompThms2 ConfCases ValueCases FitFacts FitCases DerivCases MaskFacts MaskFacts2 MaskCases SplitFacts FenceFacts SplitCases.
From Coq Require Import Permutation.
Open Scope R_scope.

(** In the objective the task and its parts together are the same. *)
Theorem C107_same_cost L nv q parts j js : let d := update L (j_model j) q in split_into parts j js -> fits L nv d j ->
  (automatic j -> sound_jac (l_jacrev L) /\ smooth L j 3 q /\ kinematic L j /\ Forall (kinematic L) js /\ List.length q = m_nq (j_model j) /\ d_qpos d = q) ->
  forall v x, cost_of L d j v x <-> total_cost L d js v x.
Proof. exact (split_cost L nv q parts j js). Qed.
Print Assumptions C107_same_cost.
(** A problem with the parts in place of the whole, registered in any order, has the same
    best velocities. *)
Theorem C107_same_best_velocities L nv q pd pd' l1 j l2 parts js : let d := update L (jd_model pd) q in
  same_setting pd pd' -> comps_of pd = l1 ++ j :: l2 -> Permutation (comps_of pd') (l1 ++ js ++ l2) ->
  split_into parts j js -> j_model j = jd_model pd -> fits L nv d j ->
  (automatic j -> sound_jac (l_jacrev L) /\ smooth L j 3 q /\ kinematic L j /\ Forall (kinematic L) js /\ List.length q = m_nq (jd_model pd) /\ d_qpos d = q) ->
  forall v, best L d pd v <-> best L d pd' v.
Proof. exact (split_best L nv q pd pd' l1 j l2 parts js). Qed.
Print Assumptions C107_same_best_velocities.
(** With a diagonal weight (a scalar or vector cost) any partition of the axes will do. *)
Theorem C107_diagonal parts W : (forall a b, a <> b -> nth b (nth a W []) 0 = 0) -> Permutation (List.concat parts) (seq 0 (List.length W)) ->
  forall a b, ~ (exists as_, In as_ parts /\ In a as_ /\ In b as_) -> nth b (nth a W []) 0 = 0.
Proof. exact (diagonal_splits parts W). Qed.
Print Assumptions C107_diagonal.
(** The position of the crank's tip: one task, or one for x and z and one for y. *)
Example C107_case D q : sound_jac D -> List.length q = 1%nat -> let L := crank D in let d := update L (chain [JHinge]) q in
  split_into [[0; 2]; [1]]%nat whole_spot spots /\ fits L 1 d whole_spot /\ automatic whole_spot /\ smooth L whole_spot 3 q /\ kinematic L whole_spot /\ Forall (kinematic L) spots /\ d_qpos d = q /\
  same_setting (crank_pd whole_spot) spots_pd /\ comps_of (crank_pd whole_spot) = [] ++ whole_spot :: [] /\ Permutation (comps_of spots_pd) ([] ++ spots ++ []).
Proof.
  intros HD Hq. cbv zeta. split; [exact spots_split|]. split; [now apply spot_fits|]. split; [exact I|]. split; [now apply crank_smooth|]. split; [apply spots_kinematic|]. split; [apply spots_kinematic|]. split; [reflexivity|].
  split; [repeat split|]. split; [reflexivity|]. apply perm_swap.
Qed.

(** The value of a part: the rows of the whole that it guards. *)
Theorem C108_part_value L rows j j' d : narrowed rows j j' -> wf_data (j_model j) d -> exists h, call L j d = Ok h /\ List.length h = 6%nat /\ call L j' d = Ok (coords rows h).
Proof. exact (narrow_value L rows j j' d). Qed.
Print Assumptions C108_part_value.
(** Its Jacobian: those rows of the whole's. *)
Theorem C108_part_jacobian L q j rows j' J : let m := j_model j in let d := update L m q in
  (forall y, List.length y = m_nq m -> wf_data m (update L m y)) -> sound_jac (l_jacrev L) -> smooth L j 6 q -> kinematic L j -> List.length q = m_nq m -> d_qpos d = q ->
  narrowed rows j j' -> kinematic L j' -> jacobian L j d = Ok J -> jacobian L j' d = Ok (rows_at rows J).
Proof. cbv zeta. intros H1 H2 H3 H4 H5 H6. exact (narrow_jacobian L q j H1 H2 H3 H4 H5 H6 rows j' J). Qed.
Print Assumptions C108_part_jacobian.
(** A velocity meets the condition of the whole exactly when it meets that of every part. *)
Theorem C108_same_condition L nv q j parts js : fence_setting L nv q j parts js -> let d := update L (j_model j) q in forall v, cbf L d v j <-> Forall (cbf L d v) js.
Proof. intros (H1 & H2 & H3 & H4 & H5 & H6 & H7 & H8 & H9). cbv zeta. intros v. exact (fence_cbf L nv q j H1 H2 H3 H4 H6 H7 H8 parts js v H9 H5). Qed.
Print Assumptions C108_same_condition.
(** So the problem with the parts in place of the whole admits the same velocities, *)
Theorem C108_same_admissible L nv q pd pd' l1 j l2 parts js : same_setting pd pd' -> comps_of pd = l1 ++ j :: l2 -> Permutation (comps_of pd') (l1 ++ js ++ l2) ->
  j_model j = jd_model pd -> fence_setting L nv q j parts js -> let d := update L (jd_model pd) q in forall v, admissible L d pd v <-> admissible L d pd' v.
Proof.
  intros A B C M (H1 & H2 & H3 & H4 & H5 & H6 & H7 & H8 & H9). rewrite M in *. cbv zeta. intros v.
  exact (fence_admissible L nv q pd pd' l1 l2 js j parts A B C H9 M H1 H2 H3 H4 H5 H6 H7 H8 v).
Qed.
Print Assumptions C108_same_admissible.
(** and, without safe displacement and away from zero Jacobians, has the same best ones. *)
Theorem C108_same_best_velocities L nv q pd pd' l1 j l2 parts js : same_setting pd pd' -> comps_of pd = l1 ++ j :: l2 -> Permutation (comps_of pd') (l1 ++ js ++ l2) ->
  j_model j = jd_model pd -> fence_setting L nv q j parts js -> let d := update L (jd_model pd) q in
  Forall (fun i => (forall k g, j_ext i = JBarrier g k -> g = 0) /\ forall J, jacobian L i d = Ok J -> frob2 J <> 0) (j :: js) ->
  forall v, best L d pd v <-> best L d pd' v.
Proof.
  intros A B C M (H1 & H2 & H3 & H4 & H5 & H6 & H7 & H8 & H9). rewrite M in *. cbv zeta. intros F.
  pose proof (Forall_inv F) as [F1 F2]. pose proof (Forall_inv_tail F) as F3.
  apply (fence_best L nv q pd pd' l1 l2 js j parts A B C H9 M H1 H2 H3 H4 H5 H6 H7 H8); [exact F1| |exact F2| ]; (eapply Forall_impl; [|exact F3]; intros i [X Y]; assumption).
Qed.
Print Assumptions C108_same_best_velocities.
(** A part whose Jacobian vanishes leaves the split problem without a best velocity, *)
Theorem C108_vanishing_part L d pd' j' J v : In j' (comps_of pd') -> is_barrier j' = true -> jacobian L j' d = Ok J -> frob2 J = 0 -> ~ best L d pd' v.
Proof. exact (vanishing_part L d pd' j' J v). Qed.
Print Assumptions C108_vanishing_part.
(** so the Jacobian condition cannot be dropped: a part whose Jacobian vanishes leaves the
    problem without a solution, although the whole had one and the same velocities are
    admitted. *)
Theorem C108_any_split_refuted D : sound_jac D -> exists L q j parts js pd pd', l_jacrev L = D /\ fence_setting L 1 q j parts js /\ j_model j = jd_model pd /\
  same_setting pd pd' /\ comps_of pd = [j] /\ comps_of pd' = js /\ Forall (fun i => forall k g, j_ext i = JBarrier g k -> g = 0) (j :: js) /\
  let d := update L (jd_model pd) q in best L d pd [0] /\ forall v, ~ best L d pd' v.
Proof.
  intros HD. exists (crank D), [0], box, [[0; 1; 3; 4]; [2; 5]]%nat, [side_box; level_box], lone_pd, axes_pd. split; [reflexivity|].
  split; [split; [exact (crank_wf D)|split; [exact HD|split; [now apply box_smooth|split; [apply box_kinematic|split; [apply axes_kinematic|split; [reflexivity|split; [reflexivity|split; [now apply box_fits|exact box_by_axes]]]]]]]]|].
  split; [reflexivity|]. split; [repeat split|]. split; [reflexivity|]. split; [reflexivity|].
  split; [repeat constructor; intros k g E; cbn in E; now injection E as <- _|]. split; [now apply lone_rests|]. intros v. now apply axes_stuck.
Qed.
Print Assumptions C108_any_split_refuted.
(** A box round the crank's tip: one barrier, or one for the lower and one for the upper walls. *)
Example C108_case D : sound_jac D -> let L := crank D in let q := [0] in let d := update L (chain [JHinge]) q in
  fence_setting L 1 q box [[0; 1; 2]; [3; 4; 5]]%nat [floor_box; roof_box] /\ same_setting box_pd walls_pd /\ comps_of box_pd = [whole_spot] ++ box :: [] /\ Permutation (comps_of walls_pd) ([whole_spot] ++ [floor_box; roof_box] ++ []) /\
  Forall (fun i => (forall k g, j_ext i = JBarrier g k -> g = 0) /\ forall J, jacobian L i d = Ok J -> frob2 J <> 0) [box; floor_box; roof_box].
Proof.
  intros HD. cbv zeta. assert (S : fence_setting (crank D) 1 [0] box [[0; 1; 2]; [3; 4; 5]]%nat [floor_box; roof_box]).
  { split; [exact (crank_wf D)|split; [exact HD|split; [now apply box_smooth|split; [apply box_kinematic|split; [apply box_kinematic|split; [reflexivity|split; [reflexivity|split; [now apply box_fits|exact box_fenced]]]]]]]]. }
  split; [exact S|]. split; [repeat split|]. split; [reflexivity|]. split; [exact (Permutation_rev [roof_box; floor_box; whole_spot])|].
  pose proof (box_jac D [0] HD eq_refl) as HJ. destruct box_fenced as [_ N]. inversion N as [|? ? ? ? N1 N']; subst. inversion N' as [|? ? ? ? N2 N'']; subst.
  assert (P : forall rows j', narrowed rows box j' -> kinematic (crank D) j' -> jacobian (crank D) j' (update (crank D) (chain [JHinge]) [0]) = Ok (rows_at rows (box_slope 0))).
  { intros rows j' Hn Hk. exact (narrow_jacobian (crank D) [0] box (crank_wf D) HD (box_smooth D [0] eq_refl) (proj1 (box_kinematic D)) eq_refl eq_refl rows j' _ Hn Hk HJ). }
  destruct (box_kinematic D) as [_ K]. pose proof (Forall_inv K) as K1. pose proof (Forall_inv (Forall_inv_tail K)) as K2.
  constructor; [|constructor; [|constructor; [|constructor]]]; (split; [intros k g E; cbn in E; now injection E as <- _|intros J EJ]).
  - rewrite HJ in EJ. apply Ok_inj in EJ. subst J. rewrite box_frob. lra.
  - rewrite (P _ _ N1 K1) in EJ. apply Ok_inj in EJ. subst J. cbn. rewrite sin_0, cos_0. lra.
  - rewrite (P _ _ N2 K2) in EJ. apply Ok_inj in EJ. subst J. cbn. rewrite sin_0, cos_0. lra.
Qed.
