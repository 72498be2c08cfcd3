(** Concrete problems for the global IK theorems. *)
From Verif Require Import Base Lin LinFacts Mjx Typing Component Problem SpecComponent SpecJoint SpecHistory SpecProblem SpecShape Witness CompThms2 Rot Conf FrameJac Collide JaxComponents LocalIK GlobalIK SpecQP QPCases MotionCases SpecValue ConfCases ValueCases SpecFit FitFacts3 FitCases SpecGlobal GlobalFacts GlobalFacts2.
Open Scope R_scope.

(** A posture task and joint limits on one hinge of range [-1, 1]; the target is 10. *)
Definition far_task : comp := mkC (mkA "far" None (tscalar 1) (fun x => x) (-1) None [] (XTask (tscalar 2) 0 (TJoint (mkJT None None None)))) true None.
Lemma far_made : constructed far_task.
Proof.
  eapply made_joint_task with (name := "far"%string) (cost := tscalar 2) (gain := tscalar 1) (gf := None) (lm := 0) (mk := None).
  unfold new_joint_task, init_task. cbn. rewrite not_neg0. reflexivity.
Qed.
Definition far_prog : list wop := [WNewProblem one (tscalar (-1)) (tscalar 1); WNewComp far_task; WNewComp bar1; WAdd 0 0; WAdd 0 1; WCop 0 (OpTargetQ (tvec [10]))].
Definition far_pd : jdata := Eval vm_compute in result (fst (step (WCompile 0) (run far_prog empty_world))).
Lemma far_compiled : compiled_by far_prog 0 far_pd. Proof. vm_compute; reflexivity. Qed.
Lemma far_tidy : tidy one far_prog.
Proof.
  split; [apply chain_sound|]. split; [repeat constructor; [exact far_made|exact bar1_made]|]. split; [repeat constructor|]. split; [repeat constructor|]. split; [repeat constructor|].
  intros k o Hk Hb. do 6 (destruct k as [|k]; [injection Hk as <-; first [contradiction | left; eexists; vm_compute; reflexivity]|]). destruct k; discriminate.
Qed.
Lemma far_accepted x : List.length x = 1%nat -> wf_data one (update even_lib one x) /\ Forall (accepted even_lib (update even_lib one x)) (comps_of far_pd).
Proof.
  intros Hx. split; [now apply even_wf|]. constructor; [exists [10]; reflexivity|]. constructor; [|constructor]. split; [exists [-1]|exists [1]]; split; reflexivity.
Qed.
Lemma far_loss x : loss_fn even_lib [x] far_pd = Ok (square (x - 10) + (penalty (x - -1) + penalty (1 - x))).
Proof.
  erewrite loss_value with (xs := [1 * square (x - 10) + 0; 1 * penalty (x - -1) + (1 * penalty (1 - x) + 0)]).
  - unfold total_of. cbn. f_equal. ring.
  - constructor; [exists [x - 10]; repeat split|]. constructor; [exists [x - -1; 1 - x]; repeat split|constructor].
Qed.
Lemma ln10 : ln 10 < 9.
Proof. rewrite <- (ln_exp 9). apply ln_increasing; [lra|]. pose proof (exp_ineq1 9). lra. Qed.
Lemma far_escapes : exists y, loss_fn even_lib [10] far_pd = Ok y /\ forall x z, -1 <= x <= 1 -> loss_fn even_lib [x] far_pd = Ok z -> y < z.
Proof.
  eexists. split; [apply far_loss|]. intros x z Hx H. rewrite far_loss in H. injection H as <-.
  pose proof (penalty_max (1 - 10)). pose proof ln10. pose proof (penalty_nonneg (x - -1)). pose proof (penalty_nonneg (1 - x)).
  assert (penalty (10 - -1) = 0) by (apply penalty_zero; lra). unfold square. nra.
Qed.

(** The same, joint limits only: no force beyond the limit. *)
Lemma lim1_loss x : loss_fn even_lib [x] lim1_pd = Ok (penalty (x - -1) + penalty (1 - x)).
Proof.
  erewrite loss_value with (xs := [1 * penalty (x - -1) + (1 * penalty (1 - x) + 0)]).
  - unfold total_of. cbn. f_equal. ring.
  - constructor; [exists [x - -1; 1 - x]; repeat split|constructor].
Qed.
Lemma lim1_stuck grad : sound_grad grad -> forall r st, gsolve even_lib grad (descent r) one 1 (tvec [5]) st lim1_pd = Ok ([5], [0], st).
Proof.
  intros Hg r st. assert (G : grad (fun x => loss_fn even_lib x lim1_pd) [5] = Ok [0]).
  { apply Hg with (F := fun y => penalty (nth 0 y 0 - -1) + penalty (1 - nth 0 y 0)); [reflexivity| |].
    - intros [|y [|? ?]] H; try discriminate. apply lim1_loss.
    - intros i Hi. cbn in Hi. assert (i = 0)%nat as -> by lia. unfold partial_derivative. cbn [replace_nth nth].
      apply derive_local with (g := fun _ => 0 + penalty (1 - 5)); [apply derivable_pt_lim_const|]. exists 1. split; [lra|]. intros y Hy. apply Rabs_def2 in Hy. f_equal.
      + apply penalty_zero. lra.
      + apply penalty_flat; lra. }
  rewrite (gsolve_ok even_lib grad (descent r) one 1 (tvec [5]) st lim1_pd [0] eq_refl G). cbn. do 3 f_equal; f_equal; field.
Qed.

(** Changing the cost of a task. *)
Definition dear_prog : list wop := far_prog ++ [WCop 0 (OpCost (tscalar 7))].
Definition dear_pd : jdata := Eval vm_compute in result (fst (step (WCompile 0) (run dear_prog empty_world))).
Lemma dear_compiled : compiled_by dear_prog 0 dear_pd. Proof. vm_compute; reflexivity. Qed.
Lemma dear_same : jd_model far_pd = jd_model dear_pd /\ Forall2 (fun a b => same_but_cost (snd a) (snd b)) (jd_comps far_pd) (jd_comps dear_pd).
Proof. split; [reflexivity|]. repeat constructor. Qed.
Lemma dear_differs : exists j j' lm k, hd_error (comps_of far_pd) = Some j /\ hd_error (comps_of dear_pd) = Some j' /\ j_ext j = JTask [[2]] lm k /\ j_ext j' = JTask [[7]] lm k.
Proof.
  assert (A : mscale 2 (eye 1) = [[2]]) by (unfold mscale, vscale, eye; cbn; do 2 f_equal; ring). assert (B : mscale 7 (eye 1) = [[7]]) by (unfold mscale, vscale, eye; cbn; do 2 f_equal; ring).
  rewrite <- A, <- B. do 4 eexists. split; [reflexivity|]. split; [reflexivity|]. split; reflexivity.
Qed.

(** A user-defined task on one component of the quaternion of a ball joint. *)
Definition ball : mjmodel := chain [JBall].
Definition tilt_fun (d : mjdata) : list R := [nth 1 (d_qpos d) 0 - 1 / 2].
Definition tilt_task : comp := mkC (mkA "tilt" None (tscalar 1) (fun x => x) 1 None [] (XTask (tscalar 1) 0 (TCustom tilt_fun))) true None.
Lemma tilt_made : constructed tilt_task.
Proof.
  eapply made_custom_task with (name := "tilt"%string) (cost := tscalar 1) (gain := tscalar 1) (gf := None) (lm := 0) (mk := None) (d := 1%Z) (f := tilt_fun).
  unfold new_custom_task, init_task. cbn. rewrite not_neg0. reflexivity.
Qed.
Definition tilt_prog : list wop := [WNewProblem ball (tscalar (-1)) (tscalar 1); WNewComp tilt_task; WAdd 0 0].
Definition tilt_pd : jdata := Eval cbv -[tilt_fun] in result (fst (step (WCompile 0) (run tilt_prog empty_world))).
Lemma tilt_compiled : compiled_by tilt_prog 0 tilt_pd. Proof. vm_compute; reflexivity. Qed.
Lemma tilt_loss q : loss_fn even_lib q tilt_pd = Ok (square (nth 1 q 0 - 1 / 2)).
Proof.
  erewrite loss_value with (xs := [1 * square (nth 1 q 0 - 1 / 2) + 0]).
  - unfold total_of. cbn. f_equal. ring.
  - constructor; [|constructor]. exists [nth 1 q 0 - 1 / 2]. repeat split.
Qed.
Lemma square_derivative a : derivable_pt_lim (fun t => square (t - 1 / 2)) a (2 * (a - 1 / 2)).
Proof.
  intros eps He. exists (mkposreal eps He). cbn. intros h Hh Hl. replace ((square (a + h - 1 / 2) - square (a - 1 / 2)) / h - 2 * (a - 1 / 2)) with h by (unfold square; field; exact Hh). exact Hl.
Qed.
Lemma tilt_step grad : sound_grad grad -> forall st, gsolve even_lib grad (descent 1) ball 1 (tvec [1; 0; 0; 0]) st tilt_pd = Ok ([1; 1; 0; 0], [0; 1; 0; 0], st).
Proof.
  intros Hg st. assert (G : grad (fun x => loss_fn even_lib x tilt_pd) [1; 0; 0; 0] = Ok [0; -1; 0; 0]).
  { apply Hg with (F := fun y => square (nth 1 y 0 - 1 / 2)); [reflexivity|intros y _; apply tilt_loss|].
    intros i Hi. unfold partial_derivative. cbn in Hi. destruct i as [|[|[|[|i]]]]; cbn [replace_nth nth]; try apply derivable_pt_lim_const; [|lia].
    replace (-1) with (2 * (0 - 1 / 2)) by lra. apply square_derivative. }
  rewrite (gsolve_ok even_lib grad (descent 1) ball 1 (tvec [1; 0; 0; 0]) st tilt_pd [0; -1; 0; 0] eq_refl G). cbn. do 3 f_equal; repeat (f_equal; try field).
Qed.
Lemma far_outside : exists os pd y, compiled_by os 0 pd /\ loss_fn even_lib [10] pd = Ok y /\
  (exists lo hi, call even_lib lim1_j (update even_lib one [10]) = Ok [lo; hi] /\ hi < 0) /\ In lim1_j (comps_of pd) /\
  forall x z, -1 <= x <= 1 -> loss_fn even_lib [x] pd = Ok z -> y < z.
Proof.
  destruct far_escapes as (y & H & K). exists far_prog, far_pd, y. split; [exact far_compiled|]. split; [exact H|]. split; [exists (10 - -1), (1 - 10); split; [reflexivity|lra]|].
  split; [right; left; reflexivity|exact K].
Qed.
