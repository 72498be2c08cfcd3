(** Continuous time: which components flow, barriers and hard constraints. *)
From Verif Require Import Base Lin LinFacts Mjx Typing Component Problem SpecComponent SpecJoint SpecHistory SpecProblem SpecShape SpecFit Rot SpecConf BindFacts JointFacts Conf JaxComponents LocalIK SpecQP SpecMotion SpecLoop SpecDeriv DerivFacts DerivThms.
From Verif Require Import ConfFacts ConfFacts2 ConfFacts3 ConfFacts4 MotionFacts MotionFacts2 LoopFacts QPFacts QPThms QPThms2 QPThms3 QPThms4 FitFacts FitFacts3 SpecSolve SolveFacts SolveThms SpecDescent DescentFacts DescentFacts2.
Open Scope R_scope.
Local Opaque dot.

Lemma nth_vle x y i : vle x y -> nth i x 0 <= nth i y 0.
Proof. unfold vle. intros H. revert i. induction H; intros [|i]; cbn; auto; lra. Qed.
Lemma nth_vneg x i : nth i (vneg x) 0 = - nth i x 0.
Proof. unfold vneg. revert i. induction x; intros [|i]; cbn; auto; try ring. Qed.
Section Flows.
Context (L : lib) (a b : R) (vs qs : R -> vec).

Lemma sel_curve m fm : follows m a b vs qs -> forall t, a < t < b -> forall i, (i < List.length (selected m fm))%nat -> derivable_pt_lim (fun s => nth i (sel_pos m fm (qs s)) 0) t (nth i (sel_vel m fm (vs t)) 0).
Proof.
  intros [_ F] t Ht i Hi. destruct (F t Ht) as [_ F']. unfold sel_pos, sel_vel. set (x := nth i (selected m fm) 0%nat).
  assert (N : forall (f : nat -> R), nth i (map f (selected m fm)) 0 = f x) by (intros f; rewrite (nth_indep _ 0 (f 0%nat)) by (now rewrite map_length); apply map_nth).
  rewrite N. apply (derivable_pt_lim_ext (fun s => nth (qpos_of m x) (qs s) 0)); [intros; now rewrite N|]. apply F'. destruct (selected_scalar m fm x) as (ty & T1 & T2); [now apply nth_In|]. now exists ty.
Qed.
Lemma joint_task_flows fm j t : joint_task fm j -> has_target j t -> let m := j_model j in keeps_scalars L m -> follows m a b vs qs -> flows L a b vs (fun s => update L m (qs s)) j.
Proof.
  intros Hj Ht m Hk F. pose proof F as [Lq F']. exists (List.length (selected m fm)), (fun s => vsub (sel_pos m fm (qs s)) t).
  destruct (joint_jac fm j (joint_task_facts fm j Hj) L (update L m (qs 0))) as (J & _). exists (fun s => match jacobian L j (update L m (qs s)) with Ok J => J | Err _ => [] end). intros s Hs.
  destruct (joint_task_motion fm j t Hj Ht L (qs s) (update L m (qs s)) (Lq s) (Hk _ (Lq s))) as (J' & Ec & EJ & Lt & MJ & Eg & M). fold m in Ec, EJ, Lt, M. rewrite EJ. split; [exact Ec|]. split; [reflexivity|].
  split; [rewrite vsub_length; rewrite ?sel_pos_length; auto|]. intros i Hi. destruct (M (vs s) 0 (proj1 (F' s Hs))) as [Ev _]. rewrite Ev.
  apply (derivable_pt_lim_ext (fun u => nth i (sel_pos m fm (qs u)) 0 - nth i t 0)); [intros u; rewrite LoopFacts.nth_vsub; [reflexivity|now rewrite sel_pos_length]|].
  replace (nth i (sel_vel m fm (vs s)) 0) with (nth i (sel_vel m fm (vs s)) 0 - 0) by ring. apply (derivable_pt_lim_minus (fun u => nth i (sel_pos m fm (qs u)) 0) (fun _ => nth i t 0)); [now apply sel_curve|apply derivable_pt_lim_const].
Qed.
Lemma joint_barrier_flows fm j lo hi : joint_barrier fm j -> has_limits j lo hi -> let m := j_model j in List.length lo = List.length (selected m fm) -> List.length hi = List.length (selected m fm) ->
  keeps_scalars L m -> follows m a b vs qs -> flows L a b vs (fun s => update L m (qs s)) j.
Proof.
  intros Hj Hl m L1 L2 Hk F. pose proof F as [Lq F']. set (n := List.length (selected m fm)) in *. exists (n + n)%nat, (fun s => slack lo hi (sel_pos m fm (qs s))).
  exists (fun s => match jacobian L j (update L m (qs s)) with Ok J => J | Err _ => [] end). intros s Hs.
  destruct (joint_barrier_motion fm j lo hi Hj Hl L (qs s) (update L m (qs s)) (Lq s) (Hk _ (Lq s)) L1 L2) as (J' & Ec & EJ & _). fold m in Ec, EJ. split; [exact Ec|]. rewrite EJ. split; [reflexivity|].
  assert (Lx : forall u, List.length (sel_pos m fm (qs u)) = n) by (intros; apply sel_pos_length).
  assert (A1 : forall u, List.length (vsub (sel_pos m fm (qs u)) lo) = n) by (intros u; rewrite vsub_length; rewrite ?Lx; auto). assert (A2 : forall u, List.length (vsub hi (sel_pos m fm (qs u))) = n) by (intros u; rewrite vsub_length; rewrite ?Lx; auto).
  split; [unfold slack; rewrite app_length, A1, A2; reflexivity|]. intros i Hi.
  destruct (jbar_jac fm j (joint_barrier_facts fm j Hj) L (update L m (qs s))) as (C & HJ & MC & Hmv). fold m in HJ, MC, Hmv. rewrite EJ in HJ. injection HJ as ->. specialize (Hmv (vs s) (proj1 (F' s Hs))). rewrite mv_app, mv_mneg, Hmv.
  assert (Lv : List.length (sel_vel m fm (vs s)) = n) by apply sel_vel_length. unfold slack. destruct (Nat.lt_ge_cases i n) as [Hi'|Hi'].
  - rewrite app_nth1 by now rewrite Lv. apply (derivable_pt_lim_ext (fun u => nth i (sel_pos m fm (qs u)) 0 - nth i lo 0)); [intros u; rewrite app_nth1 by (now rewrite A1); rewrite LoopFacts.nth_vsub; [reflexivity|now rewrite Lx]|].
    replace (nth i (sel_vel m fm (vs s)) 0) with (nth i (sel_vel m fm (vs s)) 0 - 0) by ring. apply (derivable_pt_lim_minus (fun u => nth i (sel_pos m fm (qs u)) 0) (fun _ => nth i lo 0)); [now apply sel_curve|apply derivable_pt_lim_const].
  - rewrite app_nth2 by now rewrite Lv. rewrite Lv. set (k := (i - n)%nat) in *. assert (Hk2 : (k < n)%nat) by (unfold k; lia).
    replace (nth k (vneg (sel_vel m fm (vs s))) 0) with (0 - nth k (sel_vel m fm (vs s)) 0) by (rewrite nth_vneg; ring).
    apply (derivable_pt_lim_ext (fun u => nth k hi 0 - nth k (sel_pos m fm (qs u)) 0)); [intros u; rewrite app_nth2 by (now rewrite A1); rewrite A1; fold k; rewrite LoopFacts.nth_vsub; [reflexivity|now rewrite Lx]|].
    apply (derivable_pt_lim_minus (fun _ => nth k hi 0) (fun u => nth k (sel_pos m fm (qs u)) 0)); [apply derivable_pt_lim_const|now apply sel_curve].
Qed.
Lemma scalar_entries m i : wf_joints m -> m_nq m = m_nv m -> (i < m_nq m)%nat -> exists x, scalar_joint m x /\ qpos_of m x = i /\ dof_of m x = i.
Proof.
  intros Hw He Hi. pose proof Hw as (_ & _ & _ & Hnq & Hnv & _). assert (S : Forall (fun t => is_scalar t = true) (m_jnt_type m)) by (apply all_scalar; congruence).
  destruct (entries m i Hw Hi) as [(j & Hj & ->)|[(j & k & Hj & _)|(j & c & d & k & Hj & _)]].
  - exists j. split; [exact Hj|]. split; [reflexivity|]. destruct Hj as (t & Hj & _). rewrite (qpos_pos m Hw j t Hj), (dof_pos m Hw j t Hj). unfold pos.
    assert (T : forall l, Forall (fun t => is_scalar t = true) l -> total jnt_nq l = total jnt_nv l) by (induction 1 as [|x l X _ IH]; [reflexivity|]; unfold total in *; cbn; destruct x; try discriminate; cbn; lia).
    symmetry. apply T. apply Forall_forall. intros x Hx. rewrite Forall_forall in S. apply S. rewrite <- (firstn_skipn j (m_jnt_type m)). apply in_or_app. now left.
  - exfalso. rewrite Forall_forall in S. unfold free_joint, joint_type in Hj. apply nth_error_In in Hj. apply S in Hj. discriminate.
  - exfalso. rewrite Forall_forall in S. destruct Hj as [[Hj _]|[Hj _]]; unfold joint_type in Hj; apply nth_error_In in Hj; apply S in Hj; discriminate.
Qed.
Lemma shift_lim f t l : derivable_pt_lim (fun u => f (t + u)) 0 l <-> derivable_pt_lim f t l.
Proof. unfold derivable_pt_lim. split; intros H eps He; destruct (H eps He) as (d & Hd); exists d; intros h Hh Hl; specialize (Hd h Hh Hl); rewrite ?Rplus_0_l, ?Rplus_0_r in *; exact Hd. Qed.
Lemma automatic_flows j k : let m := j_model j in sound_jac (l_jacrev L) -> automatic j -> kinematic L j -> wf_joints m -> m_nq m = m_nv m -> keeps_scalars L m -> follows m a b vs qs ->
  (forall t, a < t < b -> smooth L j k (qs t)) -> flows L a b vs (fun s => update L m (qs s)) j.
Proof.
  intros m Hs Ha Hk Hw He Hks [Lq F] Hsm. exists k, (fun s => value_at L j (qs s)), (fun s => match jacobian L j (update L m (qs s)) with Ok J => J | Err _ => [] end). intros t Ht.
  destruct (Hsm t Ht) as (Hv & M & HM & HJ). fold m in Hv, HM. destruct (Hv (qs t) (Lq t)) as (e & Ee & Le). unfold value_at at 1 2. fold m. rewrite Ee. split; [reflexivity|].
  assert (Hd : d_qpos (update L m (qs t)) = qs t).
  { destruct (Hks (qs t) (Lq t)) as [Ld Ad]. apply list_ext; [rewrite Ld; symmetry; apply Lq|]. intros i Hi. rewrite Ld in Hi. destruct (scalar_entries m i Hw He Hi) as (x & (ty & T1 & T2) & <- & _). exact (Ad x ty T1 T2). }
  pose proof (auto_jacobian L j k (qs t) M Hs Ha Hk (Lq t) Hv HM HJ Hd) as A. fold m in A. unfold to_velocity in A. rewrite (proj2 (Nat.eqb_eq _ _) He) in A. rewrite A. split; [reflexivity|]. split; [exact Le|].
  destruct (F t Ht) as [Lv F']. intros i Hi. rewrite mv_nth by (rewrite (proj1 HM); exact Hi). apply (shift_lim (fun s => nth i (value_at L j (qs s)) 0)).
  apply (grad_curve (fun y => nth i (value_at L j y) 0) (qs t) (nth i M []) (fun u => qs (t + u)) (vs t)); [apply HJ; rewrite (proj1 HM); exact Hi|rewrite Lv, Lq; congruence|intros u; exact (eq_trans (Lq (t + u)) (eq_sym (Lq t)))|exact (f_equal qs (Rplus_0_r t))|].
  intros i' Hi'. rewrite Lq in Hi'. destruct (scalar_entries m i' Hw He Hi') as (x & Hx & E1 & E2). apply (shift_lim (fun s => nth i' (qs s) 0)). pose proof (F' x Hx) as K. rewrite E1, E2 in K. exact K.
Qed.
End Flows.

(** ** Barriers and hard constraints along flows *)
Section Along.
Context (L : lib) (nv : nat) (a b : R) (vs : R -> vec) (ds : R -> mjdata) (j : jaxc) (Hf : flows L a b vs ds j) (Hw : forall t, a < t < b -> well_shaped L nv (ds t) j).

Lemma nth_gained e i : List.length (j_gain j) = List.length e -> (i < List.length e)%nat -> nth i (gained j e) 0 = nth i (j_gain j) 0 * j_gain_fn j (nth i e 0).
Proof.
  unfold gained, vmul, vmap2. revert e i. induction (j_gain j) as [|g gs IH]; intros [|x e] [|i] H Hi; cbn in *; try discriminate; try lia; [reflexivity|]. apply IH; lia.
Qed.
Lemma flow_at : exists n (h h' : nat -> R -> R), forall t, a < t < b -> exists e J, call L j (ds t) = Ok e /\ jacobian L j (ds t) = Ok J /\ List.length e = n /\ List.length (j_gain j) = n /\
  forall i, (i < n)%nat -> nth i e 0 = h i t /\ nth i (mv J (vs t)) 0 = h' i t /\ derivable_pt_lim (h i) t (h' i t).
Proof.
  destruct Hf as (n & e & J & F). exists n, (fun i t => nth i (e t) 0), (fun i t => nth i (mv (J t) (vs t)) 0). intros t Ht. destruct (F t Ht) as (Ee & EJ & Le & D). exists (e t), (J t). destruct (Hw t Ht _ _ EJ Ee) as [_ Lg]. rewrite Le in Lg. repeat split; auto.
Qed.
Section Barrier.
Context (Hc : forall t, a < t < b -> cbf L (ds t) (vs t) j).
Lemma cbf_at : exists n (h h' : nat -> R -> R), forall t, a < t < b -> (exists e, call L j (ds t) = Ok e /\ List.length e = n /\ List.length (j_gain j) = n /\ forall i, (i < n)%nat -> nth i e 0 = h i t) /\
  forall i, (i < n)%nat -> derivable_pt_lim (h i) t (h' i t) /\ - (nth i (j_gain j) 0 * j_gain_fn j (h i t)) <= h' i t.
Proof.
  destruct flow_at as (n & h & h' & G). exists n, h, h'. intros t Ht. destruct (G t Ht) as (e & J & Ee & EJ & Le & Lg & D). split; [exists e; repeat split; auto; intros i Hi; now apply D|]. intros i Hi. destruct (D i Hi) as (D1 & D2 & D3). split; [exact D3|].
  rewrite <- D1, <- D2, <- nth_gained by (rewrite ?Le; auto). rewrite <- nth_vneg. apply nth_vle. exact (Hc t Ht J e EJ Ee).
Qed.
(** Once non-negative, always non-negative. *)
Lemma barrier_flow : vnonneg (j_gain j) -> (forall x, x < 0 -> j_gain_fn j x <= 0) -> forall s t x y, a < s -> s <= t -> t < b ->
  call L j (ds s) = Ok x -> call L j (ds t) = Ok y -> vnonneg x -> vnonneg y.
Proof.
  intros Hg Hn s t x y Hs Hst Ht Ex Ey Hx. destruct cbf_at as (n & h & h' & G). destruct (G s ltac:(lra)) as ((e0 & E0 & L0 & Lg & N0) & _), (G t ltac:(lra)) as ((e1 & E1 & L1 & _ & N1) & _).
  rewrite Ex in E0. injection E0 as <-. rewrite Ey in E1. injection E1 as <-. unfold vnonneg in *. apply Forall_nth. intros i d Hi. rewrite L1 in Hi. rewrite (nth_indep _ d 0) by lia. rewrite N1 by exact Hi.
  apply (comparison a b (h i) (h' i) 0) with (s := s); auto; try lra.
  - intros u Hu. now apply G.
  - intros u Hu Hneg. destruct (G u Hu) as [_ G2]. destruct (G2 i Hi) as [_ G3]. specialize (Hn _ Hneg). assert (0 <= nth i (j_gain j) 0) by (rewrite Forall_forall in Hg; apply Hg, nth_In; lia). nra.
  - rewrite <- N0 by exact Hi. rewrite Forall_forall in Hx. apply Hx, nth_In. lia.
Qed.
(** With a linear gain function the value decays no faster than exponentially, from any value. *)
Lemma barrier_rate : (forall x, j_gain_fn j x = x) -> forall s t x y, a < s -> s <= t -> t < b -> call L j (ds s) = Ok x -> call L j (ds t) = Ok y ->
  forall i, (i < List.length x)%nat -> nth i x 0 * exp (- (nth i (j_gain j) 0 * (t - s))) <= nth i y 0.
Proof.
  intros Hid s t x y Hs Hst Ht Ex Ey i Hi. destruct cbf_at as (n & h & h' & G). destruct (G s ltac:(lra)) as ((e0 & E0 & L0 & Lg & N0) & _), (G t ltac:(lra)) as ((e1 & E1 & L1 & _ & N1) & _).
  rewrite Ex in E0. injection E0 as <-. rewrite Ey in E1. injection E1 as <-. rewrite L0 in Hi. rewrite N0, N1 by exact Hi.
  apply (growth a b (h i) (h' i)); auto; intros u Hu; destruct (G u Hu) as [_ G2]; destruct (G2 i Hi) as [G3 G4]; [exact G3|]. now rewrite Hid in G4.
Qed.
End Barrier.
(** A hard constraint's error decays exactly exponentially. *)
Lemma hard_flow : (forall t, a < t < b -> holds_exactly L (ds t) (vs t) j) -> (forall x, j_gain_fn j x = x) -> forall s t x y, a < s -> s <= t -> t < b -> call L j (ds s) = Ok x -> call L j (ds t) = Ok y ->
  List.length y = List.length x /\ forall i, (i < List.length x)%nat -> nth i y 0 = nth i x 0 * exp (- (nth i (j_gain j) 0 * (t - s))).
Proof.
  intros Hh Hid s t x y Hs Hst Ht Ex Ey. destruct flow_at as (n & h & h' & G). destruct (G s ltac:(lra)) as (e0 & J0 & E0 & _ & L0 & Lg & N0), (G t ltac:(lra)) as (e1 & J1 & E1 & _ & L1 & _ & N1).
  rewrite Ex in E0. injection E0 as <-. rewrite Ey in E1. injection E1 as <-. split; [congruence|]. intros i Hi. rewrite L0 in Hi. destruct (N0 i Hi) as [-> _], (N1 i Hi) as [-> _].
  assert (H' : forall u, a < u < b -> derivable_pt_lim (h i) u (h' i u) /\ h' i u = - (nth i (j_gain j) 0 * h i u)).
  { intros u Hu. destruct (G u Hu) as (e & J & Ee & EJ & Le & _ & N). destruct (N i Hi) as (M1 & M2 & M3). split; [exact M3|]. rewrite <- M2, (Hh u Hu J e EJ Ee), nth_vneg, nth_gained by (rewrite ?Le; auto). now rewrite Hid, M1. }
  apply Rle_antisym.
  - pose proof (growth a b (fun u => - h i u) (fun u => - h' i u) (nth i (j_gain j) 0)) as K. cbv beta in K. assert (- h i s * exp (- (nth i (j_gain j) 0 * (t - s))) <= - h i t); [|lra]. apply K; auto.
    + intros u Hu. apply (derivable_pt_lim_opp (h i)). now apply H'.
    + intros u Hu. destruct (H' u Hu) as [_ ->]. lra.
  - apply (growth a b (h i) (h' i)); auto; intros u Hu; destruct (H' u Hu) as [X Y]; [exact X|]. rewrite Y. lra.
Qed.
End Along.

(** ** Programs *)
Section Program.
Context (L : lib) (m : mjmodel) (os : list wop) (pi : nat) (pd : jdata) (Ht : tidy m os) (Hc : compiled_by os pi pd) (HL : sound_lib L m).
Context (a b : R) (vs : R -> vec) (ds : R -> mjdata) (Hd : forall t, a < t < b -> wf_data m (ds t) /\ Forall (accepted L (ds t)) (comps_of pd)).
Lemma shaped_along t : a < t < b -> Forall (well_shaped L (m_nv (jd_model pd)) (ds t)) (comps_of pd).
Proof. intros H. destruct (Hd t H) as [D A]. apply (program_shaped L m os pi pd Ht Hc HL (ds t) D A). Qed.
Lemma program_energy_flow : Forall nonneg_weights (comps_of pd) -> (forall t, a < t < b -> best L (ds t) pd (vs t) /\ admissible L (ds t) pd (vzero (m_nv m))) ->
  Forall (fun j => seeks j = true -> flows L a b vs ds j /\ exists g, uniform g j) (comps_of pd) ->
  forall s t x y, a < s -> s <= t -> t < b -> energy L (ds s) (comps_of pd) x -> energy L (ds t) (comps_of pd) y -> y <= x.
Proof.
  intros Hn Hb Hf. destruct (program_components m os pi pd Ht Hc) as (Em & _). apply (energy_flow L pd a b vs ds); auto; try (rewrite Em; intros t H; now apply Hb); try (intros t H; now apply Hb). exact shaped_along.
Qed.
Lemma program_energy_step d d' dt v : wf_data m d -> Forall (accepted L d) (comps_of pd) -> best L d pd v -> admissible L d pd (vzero (m_nv m)) -> Forall nonneg_weights (comps_of pd) -> 0 <= dt ->
  Forall (fun j => seeks j = true -> advances L dt v d d' j /\ exists g, uniform g j /\ 0 <= g * dt <= 2) (comps_of pd) ->
  forall x, energy L d (comps_of pd) x -> exists x', energy L d' (comps_of pd) x' /\ x' <= x.
Proof using Ht Hc HL.
  intros D A B Z N P F x. destruct (program_components m os pi pd Ht Hc) as (Em & _). apply (energy_step L d d' pd dt v x); auto; [now rewrite Em|]. apply (program_shaped L m os pi pd Ht Hc HL d D A).
Qed.
Lemma program_barrier_flow j : In j (comps_of pd) -> is_barrier j = true -> flows L a b vs ds j -> (forall t, a < t < b -> admissible L (ds t) pd (vs t)) ->
  (vnonneg (j_gain j) -> (forall x, x < 0 -> j_gain_fn j x <= 0) -> forall s t x y, a < s -> s <= t -> t < b -> call L j (ds s) = Ok x -> call L j (ds t) = Ok y -> vnonneg x -> vnonneg y) /\
  ((forall x, j_gain_fn j x = x) -> forall s t x y, a < s -> s <= t -> t < b -> call L j (ds s) = Ok x -> call L j (ds t) = Ok y ->
     forall i, (i < List.length x)%nat -> nth i x 0 * exp (- (nth i (j_gain j) 0 * (t - s))) <= nth i y 0).
Proof.
  intros Hj Hb Hf Ha. assert (W : forall t, a < t < b -> well_shaped L (m_nv (jd_model pd)) (ds t) j) by (intros t H; pose proof (shaped_along t H) as F; rewrite Forall_forall in F; auto).
  assert (C : forall t, a < t < b -> cbf L (ds t) (vs t) j) by (intros t H; destruct (Ha t H) as (_ & _ & _ & F); rewrite Forall_forall in F; now apply F).
  split; [exact (barrier_flow L _ a b vs ds j Hf W C)|exact (barrier_rate L _ a b vs ds j Hf W C)].
Qed.
Lemma program_hard_flow j : In j (comps_of pd) -> is_hard j = true -> flows L a b vs ds j -> (forall t, a < t < b -> admissible L (ds t) pd (vs t)) -> (forall x, j_gain_fn j x = x) ->
  forall s t x y, a < s -> s <= t -> t < b -> call L j (ds s) = Ok x -> call L j (ds t) = Ok y ->
  List.length y = List.length x /\ forall i, (i < List.length x)%nat -> nth i y 0 = nth i x 0 * exp (- (nth i (j_gain j) 0 * (t - s))).
Proof.
  intros Hj Hb Hf Ha. assert (W : forall t, a < t < b -> well_shaped L (m_nv (jd_model pd)) (ds t) j) by (intros t H; pose proof (shaped_along t H) as F; rewrite Forall_forall in F; auto).
  assert (C : forall t, a < t < b -> holds_exactly L (ds t) (vs t) j) by (intros t H; destruct (Ha t H) as (_ & _ & _ & F); rewrite Forall_forall in F; now apply F).
  exact (hard_flow L _ a b vs ds j Hf W C).
Qed.
End Program.
