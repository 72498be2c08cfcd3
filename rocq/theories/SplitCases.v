(** A position task of the crank split into two, and a box round its tip split into its
    lower and its upper walls. *)
From Verif Require Import Base Lin LinFacts Mjx Typing Component Problem SpecComponent SpecJoint SpecHistory SpecProblem Rot SpecConf Conf FrameJac JaxComponents LocalIK SpecQP SpecSolve SpecMotion SpecTree SpecShape SpecFit SpecValue SpecDeriv SpecMask SpecSplit.
From Verif Require Import Witness CompThms2 BindCases ConfCases ValueCases MotionFacts2 ConfFacts3 ConfFacts4 FitFacts FitCases DerivFacts DerivThms DerivThms2 DerivCases MaskCases MaskFacts MaskFacts2 SplitFacts FenceFacts.
From Coq Require Import Permutation.
Open Scope R_scope.

Definition whole_spot : jaxc := spot [JHinge] [1; 2; 3].
Definition part_spot (mk : list Z) (t : vec) : jaxc := compiled [OpTargetPos (tvec t); OpModel (chain [JHinge])] (pos_comp (Some mk)).
Definition spots : list jaxc := [part_spot [1; 0; 1]%Z [1; 3]; part_spot [0; 1; 0]%Z [2]].
Lemma whole_spot_task : position_task None "tip" OBody whole_spot. Proof. exact (proj1 (spot_ok JHinge [1; 2; 3] eq_refl)). Qed.
Lemma part_spot_task mk t : (mk = [1; 0; 1]%Z /\ t = [1; 3] \/ mk = [0; 1; 0]%Z /\ t = [2]) -> position_task (Some (mvec mk)) "tip" OBody (part_spot mk t).
Proof.
  intros H. exists "reach"%string, (tscalar 1), (tscalar 2), None, 0, (pos_comp (Some mk)). split; [exact (pos_comp_new (Some mk))|].
  destruct H as [(-> & ->)|(-> & ->)]; (eapply compiled_is; [reflexivity|constructor; [exact I|constructor; [apply chain_sound|constructor]]|split; [exact I|split; [vm_compute; reflexivity|exact I]]|eexists; vm_compute; reflexivity]).
Qed.
Lemma spots_split : split_into [[0; 2]; [1]]%nat whole_spot spots.
Proof.
  do 3 eexists. split; [vm_compute; reflexivity|]. split; [cbn; apply perm_skip, perm_swap|]. split.
  - intros a b H. destruct a as [|[|[|a]]], b as [|[|[|b]]]; cbn; try reflexivity; try (destruct a; reflexivity); try (destruct b; reflexivity); try (destruct a, b; reflexivity); try apply Rmult_0_r; exfalso; apply H;
      first [exists [0; 2]%nat; cbn; tauto | exists [1]%nat; cbn; tauto].
  - constructor; [|constructor; [|constructor]].
    + split; [|split; [reflexivity|split; [reflexivity|split; [reflexivity|eexists; vm_compute; reflexivity]]]].
      apply (ms_position _ _ _ (Some (mvec [1; 0; 1]%Z)) "tip" OBody [1; 2; 3]); [exact whole_spot_task|apply part_spot_task; now left|exact I|cbn; lia|reflexivity| | ]; right; do 4 eexists; vm_compute; reflexivity.
    + split; [|split; [reflexivity|split; [reflexivity|split; [reflexivity|eexists; vm_compute; reflexivity]]]].
      apply (ms_position _ _ _ (Some (mvec [0; 1; 0]%Z)) "tip" OBody [1; 2; 3]); [exact whole_spot_task|apply part_spot_task; now right|exact I|cbn; lia|reflexivity| | ]; right; do 4 eexists; vm_compute; reflexivity.
Qed.
Lemma spots_kinematic D : kinematic (crank D) whole_spot /\ Forall (kinematic (crank D)) spots.
Proof. split; [|repeat constructor]; (apply kinematic_position; [apply rig_positions|]; left; do 5 eexists; vm_compute; reflexivity). Qed.
Lemma spot_fits D q : sound_jac D -> List.length q = 1%nat -> fits (crank D) 1 (update (crank D) (chain [JHinge]) q) whole_spot.
Proof.
  intros HD Hq. destruct (automatic_scalar (crank D) whole_spot 3 q [0] HD) as (J & EJ & MJ & _).
  - exact I.
  - apply spots_kinematic.
  - apply sound_wf, (chain_sound [JHinge]).
  - now apply crank_smooth.
  - exact Hq.
  - reflexivity.
  - apply rig_scalars.
  - reflexivity.
  - exists J, (value_at (crank D) whole_spot q). split; [exact EJ|]. split; [reflexivity|]. split; [exact MJ|]. split; [reflexivity|]. cbn. split; repeat constructor.
Qed.
Definition spots_pd : jdata := mkJD (chain [JHinge]) [-1] [1] [("height"%string, nth 1 spots whole_spot); ("ground"%string, nth 0 spots whole_spot)].

(** Walls at distance two, [p_min] and [p_max] given as vectors. *)
Definition box : jaxc := compiled [OpModel (chain [JHinge])] (wall_of "both" (Some (tvec [-2; -2; -2])) (Some (tvec [2; 2; 2])) None).
Definition floor_box : jaxc := compiled [OpModel (chain [JHinge])] (wall_of "min" (Some (tvec [-2; -2; -2])) None None).
Definition roof_box : jaxc := compiled [OpModel (chain [JHinge])] (wall_of "max" None (Some (tvec [2; 2; 2])) None).
Lemma box_kind : position_barrier None "tip" OBody "both" box.
Proof.
  exists "wall"%string, (tscalar 1), (Some (tvec [-2; -2; -2])), (Some (tvec [2; 2; 2])), None, 0, (wall_of "both" (Some (tvec [-2; -2; -2])) (Some (tvec [2; 2; 2])) None). split; [reflexivity|].
  eapply compiled_is; [reflexivity|constructor; [apply chain_sound|constructor]|split; [vm_compute; reflexivity|exact I]|eexists; vm_compute; reflexivity].
Qed.
Lemma floor_kind : position_barrier None "tip" OBody "min" floor_box.
Proof.
  exists "wall"%string, (tscalar 1), (Some (tvec [-2; -2; -2])), None, None, 0, (wall_of "min" (Some (tvec [-2; -2; -2])) None None). split; [reflexivity|].
  eapply compiled_is; [reflexivity|constructor; [apply chain_sound|constructor]|split; [vm_compute; reflexivity|exact I]|eexists; vm_compute; reflexivity].
Qed.
Lemma roof_kind : position_barrier None "tip" OBody "max" roof_box.
Proof.
  exists "wall"%string, (tscalar 1), None, (Some (tvec [2; 2; 2])), None, 0, (wall_of "max" None (Some (tvec [2; 2; 2])) None). split; [reflexivity|].
  eapply compiled_is; [reflexivity|constructor; [apply chain_sound|constructor]|split; [vm_compute; reflexivity|exact I]|eexists; vm_compute; reflexivity].
Qed.
Lemma box_fenced : fenced_by [[0; 1; 2]; [3; 4; 5]]%nat box [floor_box; roof_box].
Proof.
  split.
  - intros a Ha. destruct (Nat.lt_ge_cases a 3); [exists [0; 1; 2]%nat|exists [3; 4; 5]%nat]; (split; [cbn; tauto|cbn; lia]).
  - constructor; [|constructor; [|constructor]].
    + exists None, "min"%string, "tip"%string, OBody, [-2; -2; -2], [2; 2; 2]. split; [exact box_kind|]. split; [exact floor_kind|]. split; [exact I|]. split; [exact I|]. split; [reflexivity|].
      split; [do 6 eexists; split; [vm_compute; reflexivity|split; reflexivity]|]. split; [do 6 eexists; split; [vm_compute; reflexivity|split; [reflexivity|intros H; now elim H]]|].
      split; [reflexivity|]. split; [reflexivity|reflexivity].
    + exists None, "max"%string, "tip"%string, OBody, [-2; -2; -2], [2; 2; 2]. split; [exact box_kind|]. split; [exact roof_kind|]. split; [exact I|]. split; [exact I|]. split; [reflexivity|].
      split; [do 6 eexists; split; [vm_compute; reflexivity|split; reflexivity]|]. split; [do 6 eexists; split; [vm_compute; reflexivity|split; [intros H; now elim H|reflexivity]]|].
      split; [reflexivity|]. split; [reflexivity|reflexivity].
Qed.
Lemma box_kinematic D : kinematic (crank D) box /\ Forall (kinematic (crank D)) [floor_box; roof_box].
Proof. split; [|repeat constructor]; (apply kinematic_position; [apply rig_positions|]; right; do 6 eexists; vm_compute; reflexivity). Qed.
Lemma box_value D q : let t := nth 0 q 0 in call (crank D) box (update (crank D) (chain [JHinge]) q) = Ok [cos t - -2; sin t - -2; 0 - -2; 2 - cos t; 2 - sin t; 2 - 0].
Proof. reflexivity. Qed.
Definition box_slope (t : R) : mat := [[- sin t]; [cos t]; [0]; [- - sin t]; [- cos t]; [0]].
Lemma box_jacobian D q : List.length q = 1%nat -> has_jacobian (value_at (crank D) box) q (box_slope (nth 0 q 0)).
Proof.
  intros Hq i Hi. cbn in Hi. destruct q as [|t [|? ?]]; try discriminate. unfold value_at, box_slope.
  assert (E : forall y, call (crank D) box (update (crank D) (chain [JHinge]) y) = Ok [cos (nth 0 y 0) - -2; sin (nth 0 y 0) - -2; 0 - -2; 2 - cos (nth 0 y 0); 2 - sin (nth 0 y 0); 2 - 0]) by reflexivity.
  destruct i as [|[|[|[|[|[|i]]]]]]; [| | | | | |lia]; cbn [nth].
  - apply grad_ext with (F := fun y => cos (nth 0 y 0) - -2); [eapply grad_eq; [|grad]; cbn; f_equal; ring|]. intros y _. change (j_model box) with (chain [JHinge]). now rewrite E.
  - apply grad_ext with (F := fun y => sin (nth 0 y 0) - -2); [eapply grad_eq; [|grad]; cbn; f_equal; ring|]. intros y _. change (j_model box) with (chain [JHinge]). now rewrite E.
  - apply grad_ext with (F := fun y => 0 - -2); [eapply grad_eq; [|apply grad_const]; reflexivity|]. intros y _. change (j_model box) with (chain [JHinge]). now rewrite E.
  - apply grad_ext with (F := fun y => 2 - cos (nth 0 y 0)); [eapply grad_eq; [|grad]; cbn; f_equal; ring|]. intros y _. change (j_model box) with (chain [JHinge]). now rewrite E.
  - apply grad_ext with (F := fun y => 2 - sin (nth 0 y 0)); [eapply grad_eq; [|grad]; cbn; f_equal; ring|]. intros y _. change (j_model box) with (chain [JHinge]). now rewrite E.
  - apply grad_ext with (F := fun y => 2 - 0); [eapply grad_eq; [|apply grad_const]; reflexivity|]. intros y _. change (j_model box) with (chain [JHinge]). now rewrite E.
Qed.
Lemma box_smooth D q : List.length q = 1%nat -> smooth (crank D) box 6 q.
Proof.
  intros Hq. split; [intros y _; eexists; split; [apply box_value|reflexivity]|]. exists (box_slope (nth 0 q 0)). split; [split; [reflexivity|repeat constructor]|]. now apply box_jacobian.
Qed.
Lemma box_fits D q : sound_jac D -> List.length q = 1%nat -> fits (crank D) 1 (update (crank D) (chain [JHinge]) q) box.
Proof.
  intros HD Hq. destruct (automatic_scalar (crank D) box 6 q [0] HD) as (J & EJ & MJ & _).
  - exact I.
  - apply box_kinematic.
  - apply sound_wf, (chain_sound [JHinge]).
  - now apply box_smooth.
  - exact Hq.
  - reflexivity.
  - apply rig_scalars.
  - reflexivity.
  - exists J, (value_at (crank D) box q). split; [exact EJ|]. split; [reflexivity|]. split; [exact MJ|]. split; [reflexivity|]. reflexivity.
Qed.
Lemma crank_wf D y : List.length y = 1%nat -> wf_data (chain [JHinge]) (update (crank D) (chain [JHinge]) y).
Proof. intros H. unfold wf_data. cbn. repeat split; try assumption; repeat constructor. Qed.
Definition box_pd : jdata := mkJD (chain [JHinge]) [-1] [1] [("reach"%string, whole_spot); ("box"%string, box)].
Definition walls_pd : jdata := mkJD (chain [JHinge]) [-1] [1] [("roof"%string, roof_box); ("floor"%string, floor_box); ("reach"%string, whole_spot)].

(** The same box split by axes: the tip never moves up or down, so the z walls have a zero
    Jacobian, and the safe-displacement term divides by it. *)
Definition side_box : jaxc := compiled [OpModel (chain [JHinge])] (wall_of "both" (Some (tvec [-2; -2])) (Some (tvec [2; 2])) (Some (mvec [1; 1; 0]%Z))).
Definition level_box : jaxc := compiled [OpModel (chain [JHinge])] (wall_of "both" (Some (tvec [-2])) (Some (tvec [2])) (Some (mvec [0; 0; 1]%Z))).
Lemma side_kind : position_barrier (Some (mvec [1; 1; 0]%Z)) "tip" OBody "both" side_box.
Proof.
  exists "wall"%string, (tscalar 1), (Some (tvec [-2; -2])), (Some (tvec [2; 2])), None, 0, (wall_of "both" (Some (tvec [-2; -2])) (Some (tvec [2; 2])) (Some (mvec [1; 1; 0]%Z))). split; [reflexivity|].
  eapply compiled_is; [reflexivity|constructor; [apply chain_sound|constructor]|split; [vm_compute; reflexivity|exact I]|eexists; vm_compute; reflexivity].
Qed.
Lemma level_kind : position_barrier (Some (mvec [0; 0; 1]%Z)) "tip" OBody "both" level_box.
Proof.
  exists "wall"%string, (tscalar 1), (Some (tvec [-2])), (Some (tvec [2])), None, 0, (wall_of "both" (Some (tvec [-2])) (Some (tvec [2])) (Some (mvec [0; 0; 1]%Z))). split; [reflexivity|].
  eapply compiled_is; [reflexivity|constructor; [apply chain_sound|constructor]|split; [vm_compute; reflexivity|exact I]|eexists; vm_compute; reflexivity].
Qed.
Lemma level_narrow : narrowed [2; 5]%nat box level_box.
Proof.
  exists (Some (mvec [0; 0; 1]%Z)), "both"%string, "tip"%string, OBody, [-2; -2; -2], [2; 2; 2]. split; [exact box_kind|]. split; [exact level_kind|]. split; [exact I|]. split; [cbn; lia|]. split; [reflexivity|].
  split; [do 6 eexists; split; [vm_compute; reflexivity|split; reflexivity]|]. split; [do 6 eexists; split; [vm_compute; reflexivity|split; reflexivity]|]. split; [reflexivity|]. split; reflexivity.
Qed.
Lemma box_by_axes : fenced_by [[0; 1; 3; 4]; [2; 5]]%nat box [side_box; level_box].
Proof.
  split.
  - intros a Ha. destruct a as [|[|[|[|[|[|a]]]]]]; [| | | | | |lia]; first [exists [0; 1; 3; 4]%nat; cbn; tauto|exists [2; 5]%nat; cbn; tauto].
  - constructor; [|constructor; [|constructor]].
    + exists (Some (mvec [1; 1; 0]%Z)), "both"%string, "tip"%string, OBody, [-2; -2; -2], [2; 2; 2]. split; [exact box_kind|]. split; [exact side_kind|]. split; [exact I|]. split; [cbn; lia|]. split; [reflexivity|].
      split; [do 6 eexists; split; [vm_compute; reflexivity|split; reflexivity]|]. split; [do 6 eexists; split; [vm_compute; reflexivity|split; reflexivity]|]. split; [reflexivity|]. split; reflexivity.
    + exact level_narrow.
Qed.
Lemma axes_kinematic D : Forall (kinematic (crank D)) [side_box; level_box].
Proof. repeat constructor; (apply kinematic_position; [apply rig_positions|]; right; do 6 eexists; vm_compute; reflexivity). Qed.
Lemma box_jac D q : sound_jac D -> List.length q = 1%nat -> jacobian (crank D) box (update (crank D) (chain [JHinge]) q) = Ok (box_slope (nth 0 q 0)).
Proof.
  intros HD Hq. change (chain [JHinge]) with (j_model box). rewrite (auto_jacobian (crank D) box 6 q (box_slope (nth 0 q 0)) HD I (proj1 (box_kinematic D)) Hq (proj1 (box_smooth D q Hq))).
  - reflexivity.
  - split; [reflexivity|repeat constructor].
  - now apply box_jacobian.
  - reflexivity.
Qed.
Definition lone_pd : jdata := mkJD (chain [JHinge]) [-1] [1] [("box"%string, box)].
Definition axes_pd : jdata := mkJD (chain [JHinge]) [-1] [1] [("side"%string, side_box); ("level"%string, level_box)].
Lemma box_frob t : frob2 (box_slope t) = 2.
Proof. cbn. pose proof (sin2_cos2 t) as H. unfold Rsqr in H. lra. Qed.
Lemma level_frob D q J : sound_jac D -> List.length q = 1%nat -> jacobian (crank D) level_box (update (crank D) (chain [JHinge]) q) = Ok J -> frob2 J = 0.
Proof.
  intros HD Hq HJ. pose proof (narrow_jacobian (crank D) q box (crank_wf D) HD (box_smooth D q Hq) (proj1 (box_kinematic D)) Hq eq_refl [2; 5]%nat level_box) as N.
  specialize (N (box_slope (nth 0 q 0))). change (chain [JHinge]) with (j_model box) in HJ; rewrite N in HJ; [|exact level_narrow|exact (Forall_inv (Forall_inv_tail (axes_kinematic D)))|now apply box_jac].
  apply Ok_inj in HJ. subst J. cbn. ring.
Qed.
Lemma axes_stuck D q v : sound_jac D -> List.length q = 1%nat -> ~ best (crank D) (update (crank D) (chain [JHinge]) q) axes_pd v.
Proof.
  intros HD Hq (_ & x & (xs & F & _) & _). cbn [comps_of axes_pd jd_comps map snd] in F. inversion F as [|? ? ? ? F0 F']; subst. inversion F' as [|? ? ? ? C F1]; subst.
  inversion C as [? ? ? ? ? E|? ? ? ? ? E|? ? J E HJ Hn|? ? ? E]; try discriminate E. now apply Hn, (level_frob D q J HD Hq).
Qed.
Lemma lone_rests D q : sound_jac D -> List.length q = 1%nat -> best (crank D) (update (crank D) (chain [JHinge]) q) lone_pd [0].
Proof.
  intros HD Hq. pose proof (box_jac D q HD Hq) as HJ. pose proof (box_value D q) as HV. cbv zeta in HV.
  assert (C : forall v, total_cost (crank D) (update (crank D) (chain [JHinge]) q) (comps_of lone_pd) v 0).
  { intros v. exists [1 / 2 * (0 / frob2 (box_slope (nth 0 q 0))) * sq v]. split; [constructor; [|constructor]|cbn [vsum fold_right]; rewrite box_frob; field].
    eapply cost_barrier; [vm_compute; reflexivity|exact HJ|rewrite box_frob; lra]. }
  split; [|exists 0; split; [apply C|intros w _; exists 0; split; [apply C|lra]]].
  split; [reflexivity|]. split; [constructor; [lra|constructor]|]. split; [constructor; [lra|constructor]|]. constructor; [|constructor]. split; [|intros H; discriminate H].
  intros _ J e EJ Ee. assert (X : box_slope (nth 0 q 0) = J) by (apply Ok_inj; rewrite <- HJ; exact EJ). assert (Y : [cos (nth 0 q 0) - -2; sin (nth 0 q 0) - -2; 0 - -2; 2 - cos (nth 0 q 0); 2 - sin (nth 0 q 0); 2 - 0] = e) by (apply Ok_inj; rewrite <- HV; exact Ee). subst J e.
  pose proof (COS_bound (nth 0 q 0)) as [Bc1 Bc2]. pose proof (SIN_bound (nth 0 q 0)) as [Bs1 Bs2].
  cbn [snd]. unfold gained, box_slope. change (j_gain box) with [1; 1; 1; 1; 1; 1]. cbn. change (j_gain_fn box) with (fun x : R => x). cbv beta. repeat (constructor; [lra|]). constructor.
Qed.
