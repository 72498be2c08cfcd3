(** A crank whose tip may not pass the line x = 1 which it can only touch, and a bent loop closure. *)
From Verif Require Import Base Lin LinFacts Mjx Typing Component Problem SpecComponent SpecJoint SpecHistory SpecProblem Rot SpecConf Conf FrameJac JaxComponents LocalIK SpecQP SpecSolve SpecMotion SpecTree SpecShape SpecFit SpecValue SpecDeriv SpecDescent SpecTol SpecStep.
From Verif Require Import Witness CompThms2 BindCases ConfCases ValueCases MotionFacts2 ConfFacts3 ConfFacts4 FitFacts FitCases QPCases DerivFacts DerivThms DerivThms2 DerivCases SplitCases DescentThms2 DescentCases MotionCases TolFacts StepFacts StepThms.
Open Scope R_scope.

Definition hinge := chain [JHinge].
Definition tick : lib := crank true_jac.
Definition rail_comp : comp := wall_of "min" (Some (tvec [1; -2; -2])) None None.
Definition rail : jaxc := compiled [OpModel hinge] rail_comp.
Lemma tick_sound : sound_lib tick hinge.
Proof.
  split.
  - intros q Hq. unfold wf_data. cbn. repeat split; try assumption; repeat constructor.
  - intros f x k H. destruct (H x eq_refl) as (y & E & <-). cbn. unfold true_jac. rewrite E. eexists. split; [reflexivity|]. split; [now rewrite map_length, seq_length|].
    apply Forall_forall. intros r Hr. apply in_map_iff in Hr as (i & <- & _). now rewrite map_length, seq_length.
Qed.
Lemma rail_value q : let t := nth 0 q 0 in call tick rail (update tick hinge q) = Ok [cos t - 1; sin t - -2; 0 - -2].
Proof. reflexivity. Qed.
Definition rail_slope (t : R) : mat := [[- sin t]; [cos t]; [0]].
Lemma rail_kinematic : kinematic tick rail.
Proof. apply kinematic_position; [apply rig_positions|]. right. do 6 eexists. vm_compute. reflexivity. Qed.
Lemma rail_jacobian q : List.length q = 1%nat -> has_jacobian (value_at tick rail) q (rail_slope (nth 0 q 0)).
Proof.
  intros Hq i Hi. cbn in Hi. destruct q as [|t [|? ?]]; try discriminate. unfold value_at, rail_slope.
  assert (E : forall y, call tick rail (update tick hinge y) = Ok [cos (nth 0 y 0) - 1; sin (nth 0 y 0) - -2; 0 - -2]) by reflexivity.
  destruct i as [|[|[|i]]]; [| | |lia]; cbn [nth].
  - apply grad_ext with (F := fun y => cos (nth 0 y 0) - 1); [eapply grad_eq; [|grad]; cbn; f_equal; ring|]. intros y _. change (j_model rail) with hinge. now rewrite E.
  - apply grad_ext with (F := fun y => sin (nth 0 y 0) - -2); [eapply grad_eq; [|grad]; cbn; f_equal; ring|]. intros y _. change (j_model rail) with hinge. now rewrite E.
  - apply grad_ext with (F := fun y => 0 - -2); [eapply grad_eq; [|apply grad_const]; reflexivity|]. intros y _. change (j_model rail) with hinge. now rewrite E.
Qed.
Lemma rail_smooth q : List.length q = 1%nat -> smooth tick rail 3 q.
Proof.
  intros Hq. split; [intros y _; eexists; split; [apply rail_value|reflexivity]|]. exists (rail_slope (nth 0 q 0)). split; [split; [reflexivity|repeat constructor]|]. now apply rail_jacobian.
Qed.
Lemma rail_jac q : List.length q = 1%nat -> jacobian tick rail (update tick hinge q) = Ok (rail_slope (nth 0 q 0)).
Proof.
  intros Hq. change hinge with (j_model rail). rewrite (auto_jacobian tick rail 3 q (rail_slope (nth 0 q 0)) true_jac_sound I rail_kinematic Hq (proj1 (rail_smooth q Hq))).
  - reflexivity.
  - split; [reflexivity|repeat constructor].
  - now apply rail_jacobian.
  - reflexivity.
Qed.
Definition rail_prog : list wop := [WNewProblem hinge (tscalar (-1)) (tscalar 1); WNewComp rail_comp; WAdd 0 0].
Definition rail_pd : jdata := Eval vm_compute in result (fst (step (WCompile 0) (run rail_prog empty_world))).
Lemma rail_comps : comps_of rail_pd = [rail]. Proof. vm_compute. reflexivity. Qed.
Lemma rail_compiled : compiled_by rail_prog 0 rail_pd. Proof. vm_compute. reflexivity. Qed.
Lemma rail_made : constructed rail_comp.
Proof.
  assert (Hn : new_position_barrier "wall" (tscalar 1) "tip" OBody (Some (tvec [1; -2; -2])) None "min" None 0 None = Ok rail_comp) by reflexivity.
  eapply made_position_barrier. exact Hn.
Qed.
Lemma rail_tidy : tidy hinge rail_prog.
Proof.
  split; [apply chain_sound|]. split; [repeat constructor; exact rail_made|]. split; [repeat (constructor; [first [exact I|reflexivity]|]); constructor|].
  split; [repeat constructor|]. split; [repeat (constructor; [first [exact I|reflexivity|split; [reflexivity|first [exact I|reflexivity]]]|]); constructor|].
  intros k o Hk Hb. do 3 (destruct k as [|k]; [injection Hk as <-; first [contradiction | left; eexists; vm_compute; reflexivity]|]). destruct k; discriminate.
Qed.
(** To and fro: 0, 1/2, 0, 1/2, ... *)
Definition swing_q (k : nat) : vec := if Nat.even k then [0] else [1 / 2].
Definition swing_v (k : nat) : vec := if Nat.even k then [1] else [-1].
Definition swing_d (k : nat) (t : R) : mjdata := update tick hinge (vadd (swing_q k) (vscale t (swing_v k))).
Lemma swing_shape k : List.length (swing_q k) = 1%nat /\ List.length (swing_v k) = 1%nat.
Proof. unfold swing_q, swing_v. now destruct (Nat.even k). Qed.
Lemma hinge_wf : wf_joints hinge. Proof. apply sound_wf, (chain_sound [JHinge]). Qed.
Lemma cos_half : 7 / 8 <= cos (1 / 2) < 1.
Proof.
  split; [|assert (K : cos (1 / 2) < cos 0) by (apply cos_decreasing_1; pose proof PI2_1; unfold PI2 in *; lra); rewrite cos_0 in K; exact K].
  pose proof (pre_cos_bound (1 / 2) 0 ltac:(lra) ltac:(lra)) as [K _]. unfold cos_approx, cos_term in K. cbn in K. lra.
Qed.
Lemma sin_half : 23 / 48 <= sin (1 / 2).
Proof.
  pose proof PI2_1 as P. unfold PI2 in P. pose proof (pre_sin_bound (1 / 2) 0 ltac:(lra) ltac:(lra)) as [K _]. unfold sin_approx, sin_term in K. cbn in K. lra.
Qed.
Lemma swing_near k : nearly 0 tick (update tick hinge (swing_q k)) rail_pd (swing_v k).
Proof.
  destruct (swing_shape k) as [L1 L2]. pose proof (rail_jac (swing_q k) L1) as HJ. pose proof (rail_value (swing_q k)) as HV. cbv zeta in HV.
  split; [exact L2|]. split; [unfold swing_v; destruct (Nat.even k); cbn; (constructor; [lra|constructor])|]. split; [unfold swing_v; destruct (Nat.even k); cbn; (constructor; [lra|constructor])|].
  rewrite rail_comps. constructor; [|constructor]. split; [|intros K; discriminate K]. intros _ J e EJ Ee. rewrite HJ in EJ. apply Ok_inj in EJ. subst J. rewrite HV in Ee. apply Ok_inj in Ee. subst e.
  pose proof cos_half. pose proof sin_half. pose proof (SIN_bound (1 / 2)). unfold gained, rail_slope. change (j_gain rail) with [1; 1; 1]. change (j_gain_fn rail) with (fun x : R => x).
  unfold swing_q, swing_v. destruct (Nat.even k); cbn; rewrite ?cos_0, ?sin_0; repeat (constructor; [lra|]); constructor.
Qed.
Lemma swing_steady k : steady 1 tick (1 / 2) (swing_v k) (swing_d k) rail.
Proof.
  destruct (swing_shape k) as [L1 L2]. set (s := nth 0 (swing_q k) 0). set (w := nth 0 (swing_v k) 0).
  assert (W : w * w = 1) by (unfold w, swing_v; destruct (Nat.even k); cbn; ring).
  assert (A : forall t, nth 0 (vadd (swing_q k) (vscale t (swing_v k))) 0 = s + t * w) by (intros t; apply nth_vadd_scale; congruence).
  assert (B : forall t, List.length (vadd (swing_q k) (vscale t (swing_v k))) = 1%nat) by (intros t; unfold vadd, vscale, vmap2; rewrite map_length, combine_length, map_length; lia).
  assert (V : swing_v k = [w]) by (unfold w, swing_v; now destruct (Nat.even k)).
  apply (accelerations_bound 1 tick (-1) 1 (1 / 2) (swing_v k) (swing_d k) rail 3 (fun t => rail_slope (s + t * w)) (fun i t => nth i [- cos (s + t * w); - sin (s + t * w); 0] 0)); try lra.
  - apply (straight_automatic tick rail 3 (-1) 1 (swing_q k) (swing_v k)); try assumption; try reflexivity; [apply true_jac_sound|apply rail_kinematic|apply hinge_wf|apply rig_scalars|]. intros x Hx. now apply rail_smooth.
  - intros t _. split; [unfold swing_d; rewrite rail_jac by apply B; now rewrite A|]. split; [reflexivity|]. intros i Hi. rewrite V.
    assert (D : derivable_pt_lim (fun x => s + x * w) t w) by (intros eps He; exists (mkposreal 1 Rlt_0_1); intros h Hh _; replace ((s + (t + h) * w - (s + t * w)) / h - w) with 0 by (field; exact Hh); now rewrite Rabs_R0).
    pose proof (COS_bound (s + t * w)). pose proof (SIN_bound (s + t * w)). destruct i as [|[|[|i]]]; [| | |lia]; cbn -[derivable_pt_lim]; split.
    + apply (derivable_pt_lim_ext (fun x => - w * sin (s + x * w))); [intros x; ring|]. replace (- cos (s + t * w)) with (- w * (cos (s + t * w) * w)) by (replace (- w * (cos (s + t * w) * w)) with (- (w * w) * cos (s + t * w)) by ring; rewrite W; ring).
      apply (derivable_pt_lim_scal (fun x => sin (s + x * w))). apply (derivable_pt_lim_comp (fun x => s + x * w) sin); [exact D|apply derivable_pt_lim_sin].
    + apply Rabs_le. lra.
    + apply (derivable_pt_lim_ext (fun x => w * cos (s + x * w))); [intros x; ring|]. replace (- sin (s + t * w)) with (w * (- sin (s + t * w) * w)) by (replace (w * (- sin (s + t * w) * w)) with (- (w * w) * sin (s + t * w)) by ring; rewrite W; ring).
      apply (derivable_pt_lim_scal (fun x => cos (s + x * w))). apply (derivable_pt_lim_comp (fun x => s + x * w) cos); [exact D|apply derivable_pt_lim_cos].
    + apply Rabs_le. lra.
    + apply (derivable_pt_lim_ext (fun _ => 0)); [intros x; ring|]. apply derivable_pt_lim_const.
    + rewrite Rabs_R0. lra.
Qed.
Lemma swing_loop : sampled_loop 0 1 tick hinge (fun _ => rail_pd) (1 / 2) swing_q swing_v swing_d rail.
Proof.
  intros k. destruct (swing_shape k) as [L1 L2]. assert (I1 : forall t, integrate hinge (swing_q k) (swing_v k) t = Ok (vadd (swing_q k) (vscale t (swing_v k)))) by (intros t; apply straight_integrate; [apply hinge_wf|reflexivity|assumption|assumption]).
  split; [rewrite I1; f_equal; unfold swing_q, swing_v; rewrite Nat.even_succ, <- Nat.negb_even; destruct (Nat.even k); cbn; f_equal; lra|]. split; [apply swing_near|].
  split; [unfold swing_d; f_equal; unfold swing_q, swing_v; destruct (Nat.even k); cbn; f_equal; lra|]. split; [|apply swing_steady].
  intros t x _ Hx. rewrite I1 in Hx. injection Hx as <-. reflexivity.
Qed.
Lemma swing_ready k : tidy hinge rail_prog /\ compiled_by rail_prog 0 rail_pd /\ In rail (comps_of rail_pd) /\ wf_data hinge (update tick hinge (swing_q k)) /\ Forall (accepted tick (update tick hinge (swing_q k))) (comps_of rail_pd).
Proof.
  split; [exact rail_tidy|]. split; [exact rail_compiled|]. rewrite rail_comps. split; [now left|]. split; [apply crank_wf, swing_shape|]. constructor; [|constructor]. split; [exact I|]. split; [now exists [1; -2; -2]|first [now exists [0; 0; 0]|now exists [0]|now exists []]].
Qed.
Lemma swing_outside k : exists e, call tick rail (update tick hinge (swing_q (2 * k + 1))) = Ok e /\ nth 0 e 0 < 0.
Proof.
  eexists. split; [apply rail_value|]. unfold swing_q. rewrite Nat.even_add, Nat.even_mul. cbn. pose proof cos_half. lra.
Qed.

(** A loop closure with error q + q^2/2, resolved with gain 1/2 and steps of 1. *)
Definition bent_rows (_ : mjmodel) (d : mjdata) : mjdata := let x := nth 0 (d_qpos d) 0 in
  {| d_qpos := d_qpos d; d_xpos := d_xpos d; d_xmat := d_xmat d; d_xquat := d_xquat d; d_xipos := d_xipos d;
     d_geom_xpos := d_geom_xpos d; d_geom_xmat := d_geom_xmat d; d_site_xpos := d_site_xpos d; d_site_xmat := d_site_xmat d;
     d_subtree_com := d_subtree_com d; d_cdof := d_cdof d; d_efc_pos := [x + x * x / 2]; d_efc_is_equality := [true]; d_efc_J := [[1 + x]] |}.
Definition bent : lib := mkL (1 / 1000) (fun m => straight m []) (fun _ d => d) (fun _ d => d) bent_rows ones_jac (fun _ => None).
Lemma bent_sound : sound_lib bent onee. Proof. exact (even_sound onee). Qed.
Definition bent_j : jaxc := nth 0 (comps_of dec_pd) dummy_j.
Lemma bent_comps : comps_of dec_pd = [bent_j]. Proof. reflexivity. Qed.
Definition rate (x : R) : R := - (1 / 2 * (x + x * x / 2) / (1 + x)).
Fixpoint bent_x (k : nat) : R := match k with 0%nat => 1 | S k => bent_x k + 1 * rate (bent_x k) end.
Lemma rate_bound x : 0 <= x <= 1 -> - (x / 2) <= rate x <= 0 /\ (1 + x) * rate x = - (1 / 2 * (x + x * x / 2)).
Proof.
  intros H. assert (E : (1 + x) * rate x = - (1 / 2 * (x + x * x / 2))) by (unfold rate; field; lra). split; [|exact E]. split.
  - apply Rmult_le_reg_l with (1 + x); [lra|]. rewrite E. nra.
  - apply Rmult_le_reg_l with (1 + x); [lra|]. rewrite E. nra.
Qed.
Lemma bent_range k : 0 <= bent_x k <= 1.
Proof. induction k as [|k IH]; cbn; [lra|]. destruct (rate_bound _ IH) as [B _]. lra. Qed.
Definition bent_q (k : nat) : vec := [bent_x k].
Definition bent_v (k : nat) : vec := [rate (bent_x k)].
Definition bent_d (k : nat) (t : R) : mjdata := update bent onee [bent_x k + t * rate (bent_x k)].
Lemma bent_at x : call bent bent_j (update bent onee [x]) = Ok [x + x * x / 2] /\ jacobian bent bent_j (update bent onee [x]) = Ok [[1 + x]].
Proof. split; reflexivity. Qed.
Lemma bent_wf x : wf_data onee (update bent onee [x]).
Proof.
  destruct (even_wf onee [x] eq_refl) as (A1 & A2 & A3 & A4 & A5 & A6 & A7 & A8 & A9 & A10 & A11 & _). unfold wf_data. cbn [update bent bent_rows l_make_constraint l_com_pos d_qpos d_xpos d_xmat d_xquat d_xipos d_geom_xpos d_geom_xmat d_site_xpos d_site_xmat d_subtree_com d_cdof d_efc_pos d_efc_is_equality d_efc_J].
  repeat (split; [assumption|]). cbn. repeat split; repeat constructor.
Qed.
Lemma onee_int x v t : integrate onee [x] [v] t = Ok [x + t * v].
Proof. rewrite straight_integrate; [reflexivity|apply sound_wf, onee_sound|reflexivity|reflexivity|reflexivity]. Qed.
Lemma bent_steady k : steady (1 / 4) bent 1 (bent_v k) (bent_d k) bent_j.
Proof.
  set (x := bent_x k). set (v := rate x). assert (Hx : 0 <= x <= 1) by apply bent_range. destruct (rate_bound x Hx) as [B _]. fold v in B.
  assert (D : forall c t, derivable_pt_lim (fun u => c + u * v) t v) by (intros c t eps He; exists (mkposreal 1 Rlt_0_1); intros h Hh _; replace ((c + (t + h) * v - (c + t * v)) / h - v) with 0 by (field; exact Hh); now rewrite Rabs_R0).
  apply (accelerations_bound (1 / 4) bent (-1) 2 1 (bent_v k) (bent_d k) bent_j 1 (fun t => [[1 + (x + t * v)]]) (fun _ _ => v * v)); try lra.
  - exists 1%nat, (fun t => [(x + t * v) + (x + t * v) * (x + t * v) / 2]), (fun t => [[1 + (x + t * v)]]). intros t _. destruct (bent_at (x + t * v)) as [E1 E2]. split; [exact E1|]. split; [exact E2|]. split; [reflexivity|].
    intros i Hi. destruct i; [|lia]. cbn -[derivable_pt_lim]. fold x v. replace ((1 + (x + t * v)) * v + 0) with (v + (v * (x + t * v) + (x + t * v) * v) * / 2) by field.
    apply (derivable_pt_lim_plus (fun u => x + u * v) (fun u => (x + u * v) * (x + u * v) / 2)); [apply D|]. apply (derivable_pt_lim_ext (fun u => / 2 * ((x + u * v) * (x + u * v)))); [intros u; field|]. rewrite (Rmult_comm _ (/ 2)).
    apply (derivable_pt_lim_scal (fun u => (x + u * v) * (x + u * v))). apply (derivable_pt_lim_mult (fun u => x + u * v) (fun u => x + u * v)); apply D.
  - intros t _. destruct (bent_at (x + t * v)) as [_ E2]. split; [exact E2|]. split; [reflexivity|]. intros i Hi. destruct i; [|lia]. cbn -[derivable_pt_lim]. fold x v. split; [|rewrite Rabs_pos_eq; nra].
    apply (derivable_pt_lim_ext (fun u => v * ((1 + x) + u * v))); [intros u; ring|]. apply (derivable_pt_lim_scal (fun u => (1 + x) + u * v)). apply D.
Qed.
Lemma bent_loop : sampled_loop 0 (1 / 4) bent onee (fun _ => dec_pd) 1 bent_q bent_v bent_d bent_j.
Proof.
  intros k. split; [exact (onee_int (bent_x k) (rate (bent_x k)) 1)|]. destruct (rate_bound _ (bent_range k)) as [B E]. pose proof (bent_range k) as Hx. split.
  - split; [reflexivity|]. split; [cbn; constructor; [lra|constructor]|]. split; [cbn; constructor; [lra|constructor]|]. rewrite bent_comps. constructor; [|constructor]. split; [intros K; discriminate K|]. intros _ J e EJ Ee.
    destruct (bent_at (bent_x k)) as [V1 V2]. unfold bent_q in *. rewrite V2 in EJ. apply Ok_inj in EJ. subst J. rewrite V1 in Ee. apply Ok_inj in Ee. subst e.
    unfold gained. change (j_gain bent_j) with [1 / 2]. change (j_gain_fn bent_j) with (fun x : R => x). cbn. constructor; [|constructor]. rewrite Rabs_right; lra.
  - split; [unfold bent_d, bent_q; do 2 f_equal; ring|]. split; [|apply bent_steady]. intros t x _ Hx'. unfold bent_q, bent_v in Hx'. rewrite onee_int in Hx'. injection Hx' as <-. reflexivity.
Qed.
Lemma bent_ready k : tidy onee dec_prog /\ compiled_by dec_prog 0 dec_pd /\ In bent_j (comps_of dec_pd) /\ wf_data onee (update bent onee (bent_q k)) /\ Forall (accepted bent (update bent onee (bent_q k))) (comps_of dec_pd).
Proof.
  split; [exact dec_tidy|]. split; [vm_compute; reflexivity|]. rewrite bent_comps. split; [now left|]. split; [apply bent_wf|]. constructor; [|constructor]. reflexivity.
Qed.
