(** Following moving targets. *)
From Verif Require Import Base Lin LinFacts Mjx Typing Component Problem SpecComponent ComponentFacts ComponentFacts2 SpecJoint SpecHistory JointFacts BindFacts BindFacts3 SpecProblem SpecShape SpecFit SpecValue SpecConf Rot Conf FrameJac Collide JaxComponents LocalIK SpecQP QPFacts QPThms QPThms2 QPThms3 QPThms4 SpecMotion MotionFacts MotionFacts2 SpecLoop LoopFacts FitThms FitFacts FitFacts3 SpecSolve SolveFacts SolveThms SpecDescent DescentFacts2 DescentThms2 SpecClosed SpecTol TolFacts TolThms SpecDeriv SpecStep StepFacts StepThms SpecGoals GoalThms GoalThms2 SpecMove MoveFacts MoveThms MoveThms2 SpecTrack.
Open Scope R_scope.

Lemma close_length eps (x y : vec) : close_by eps x y -> List.length x = List.length y.
Proof. induction 1; cbn; congruence. Qed.
Lemma close_refl eps (x : vec) : 0 <= eps -> close_by eps x x.
Proof. intros H. induction x; constructor; [rewrite Rminus_diag_eq by reflexivity; rewrite Rabs_R0; lra|assumption]. Qed.
Lemma abs_between x c : Rabs x <= c <-> - c <= x <= c.
Proof. unfold Rabs. destruct (Rcase_abs x); lra. Qed.

Lemma chase_step L nv j eps M dt v d d' ds : well_shaped L nv d j -> (forall x, j_gain_fn j x = x) -> 0 < dt -> nearly_met eps L d v j -> ds 0 = d -> ds dt = d' -> steady M L dt v ds j ->
  exists e e', call L j d = Ok e /\ call L j d' = Ok e' /\ List.length e = List.length (j_gain j) /\ List.length e' = List.length (j_gain j) /\
  forall i, (i < List.length (j_gain j))%nat -> Rabs (nth i e' 0 - (1 - nth i (j_gain j) 0 * dt) * nth i e 0) <= (eps + M * dt / 2) * dt.
Proof.
  intros W Hid Hdt HN E0 E1 (a0 & b0 & Pa & Pb & (n & e & J & F) & HM).
  destruct (F 0 ltac:(lra)) as (C0 & J0 & L0 & _). destruct (F dt ltac:(lra)) as (C1 & _ & L1 & _). rewrite E0 in C0, J0. rewrite E1 in C1.
  exists (e 0), (e dt). split; [exact C0|]. split; [exact C1|]. destruct (W _ _ J0 C0) as [WW Lg]. split; [congruence|]. split; [congruence|]. intros i Hi. set (a := nth i (j_gain j) 0).
  assert (LJ : List.length (mv (J 0) v) = List.length (j_gain j)) by (unfold mv; rewrite map_length; destruct WW as [WW _]; unfold vec in *; rewrite WW; congruence).
  assert (T : Rabs (nth i (e dt) 0 - nth i (e 0) 0 - dt * nth i (mv (J 0) v) 0) <= M * dt * dt / 2).
  { apply (taylor1 a0 b0 dt M (fun t => nth i (e t) 0) (fun t => nth i (mv (J t) v) 0)); auto.
    - intros t Hti. destruct (F t Hti) as (_ & _ & _ & D). apply D. lia.
    - intros t Hti. destruct (F t ltac:(lra)) as (_ & Jt & _). rewrite <- E0 in J0. pose proof (HM t _ _ Hti J0 Jt) as K. apply nth_close_by; [exact K|]. rewrite (close_length _ _ _ K), LJ. exact Hi. }
  pose proof (HN _ _ J0 C0) as C. pose proof (nth_close_by eps _ _ i C ltac:(rewrite LJ; exact Hi)) as K. rewrite nth_vneg, nth_gained in K by lia. rewrite Hid in K. fold a in K. apply abs_between in K. apply abs_between in T. apply abs_between.
  assert (dt * (nth i (mv (J 0) v) 0 - - (a * nth i (e 0) 0)) <= dt * eps) by (apply Rmult_le_compat_l; lra).
  assert (dt * - eps <= dt * (nth i (mv (J 0) v) 0 - - (a * nth i (e 0) 0))) by (apply Rmult_le_compat_l; lra). lra.
Qed.

Lemma chase_loop L m os pi pd js eps M s dt (q v : nat -> vec) ds :
  (forall k : nat, tidy m (os k) /\ compiled_by (os k) (pi k) (pd k) /\ In (js k) (comps_of (pd k)) /\ wf_data m (update L m (q k)) /\ Forall (accepted L (update L m (q k))) (comps_of (pd k))) -> sound_lib L m ->
  (forall k x, j_gain_fn (js k) x = x) -> 0 < dt -> let g := j_gain (js 0%nat) in Forall (fun a => 0 < a /\ a * dt <= 1) g ->
  (forall k, nearly_met eps L (update L m (q k)) (v k) (js k)) -> chasing M s L m dt q v ds js ->
  exists h : nat -> vec, (forall k, call L (js k) (update L m (q k)) = Ok (h k) /\ List.length (h k) = List.length g) /\
  forall k i, (i < List.length g)%nat -> let a := nth i g 0 in let r := (1 - a * dt) ^ k in Rabs (nth i (h k) 0 - r * nth i (h 0%nat) 0) <= (1 - r) * ((s + eps + M * dt / 2) / a).
Proof.
  intros Hp HL Hid Hdt g Hg Hn Hs.
  assert (G : forall k, j_gain (js k) = g) by (induction k as [|k IH]; [reflexivity|]; destruct (Hs k) as (_ & _ & _ & _ & E & _); congruence).
  assert (ST : forall k, exists e e', call L (js k) (update L m (q k)) = Ok e /\ call L (js k) (update L m (q (S k))) = Ok e' /\ List.length e = List.length g /\ List.length e' = List.length g /\
    forall i, (i < List.length g)%nat -> Rabs (nth i e' 0 - (1 - nth i g 0 * dt) * nth i e 0) <= (eps + M * dt / 2) * dt).
  { intros k. destruct (Hp k) as (P1 & P2 & P3 & P4 & P5), (Hs k) as (S1 & S2 & S3 & S4 & _).
    assert (W : well_shaped L (m_nv (jd_model (pd k))) (update L m (q k)) (js k)) by (destruct (shaped_at L m (os k) (pi k) (pd k) P1 P2 HL _ P4 P5) as [_ F]; rewrite Forall_forall in F; auto).
    rewrite <- (G k). apply (chase_step L _ (js k) eps M dt (v k) _ _ (ds k) W); auto. apply S3; [lra|exact S1]. }
  set (h := fun k => match call L (js k) (update L m (q k)) with Ok e => e | Err _ => [] end). exists h.
  assert (HH : forall k, call L (js k) (update L m (q k)) = Ok (h k) /\ List.length (h k) = List.length g) by (intros k; destruct (ST k) as (e & e' & E & _ & Le & _); unfold h; rewrite E; now split).
  split; [exact HH|]. intros k i Hi a r. assert (Pa : 0 < a /\ a * dt <= 1) by (rewrite Forall_forall in Hg; apply (Hg a), nth_In, Hi). set (c := (s + eps + M * dt / 2) / a).
  assert (SK : forall k, Rabs (nth i (h (S k)) 0 - (1 - a * dt) * nth i (h k) 0) <= c * (a * dt)).
  { intros k0. destruct (ST k0) as (e & e' & E & E' & _ & Le' & Q). destruct (HH k0) as [X _]. rewrite X in E. injection E as <-. destruct (HH (S k0)) as [X' Lx']. destruct (Hs k0) as (_ & _ & _ & _ & _ & Mv).
    pose proof (nth_close_by _ _ _ i (Mv _ _ E' X') ltac:(rewrite Lx'; exact Hi)) as B. specialize (Q i Hi). fold a in Q. replace (c * (a * dt)) with (s * dt + (eps + M * dt / 2) * dt) by (unfold c; field; lra).
    apply abs_between in B. apply abs_between in Q. apply abs_between. lra. }
  subst r. induction k as [|k IH]; [rewrite !pow_O; rewrite Rabs_pos_eq; lra|].
  replace ((1 - a * dt) ^ S k) with ((1 - a * dt) * (1 - a * dt) ^ k) by reflexivity. set (r := (1 - a * dt) ^ k) in *. specialize (SK k).
  replace (nth i (h (S k)) 0 - (1 - a * dt) * r * nth i (h 0%nat) 0) with ((nth i (h (S k)) 0 - (1 - a * dt) * nth i (h k) 0) + (1 - a * dt) * (nth i (h k) 0 - r * nth i (h 0%nat) 0)) by ring.
  eapply Rle_trans; [apply Rabs_triang|]. rewrite Rabs_mult, (Rabs_pos_eq (1 - a * dt)) by lra. assert ((1 - a * dt) * Rabs (nth i (h k) 0 - r * nth i (h 0%nat) 0) <= (1 - a * dt) * ((1 - r) * c)) by (apply Rmult_le_compat_l; lra). lra.
Qed.

Lemma best_meets L m os pi pd d v j : tidy m os -> compiled_by os pi pd -> sound_lib L m -> wf_data m d -> Forall (accepted L d) (comps_of pd) -> Forall nonneg_weights (comps_of pd) -> Forall cares (comps_of pd) ->
  best L d pd v -> Forall (quiet L d) (comps_of pd) -> (exists w, admissible L d pd w /\ meets_goals L d w pd) -> In j (comps_of pd) -> seeks j = true -> nearly_met 0 L d v j.
Proof.
  intros Ht Hc HL Hd Ha Hn Hr Hb Hq (w & Aw & Mw) Hi Hs J e EJ Ee. pose proof (program_met L m os pi pd Ht Hc HL d Hd Ha Hn Hr v w Hb Hq Aw Mw) as M. unfold meets_goals in M. rewrite Forall_forall in M.
  rewrite (M j Hi Hs J e EJ Ee). apply close_refl. lra.
Qed.
(** For ever: the error ends up within the lag, and once it is it stays. *)
Lemma chase_for_ever L m os pi pd js eps M s dt (q v : nat -> vec) ds :
  (forall k : nat, tidy m (os k) /\ compiled_by (os k) (pi k) (pd k) /\ In (js k) (comps_of (pd k)) /\ wf_data m (update L m (q k)) /\ Forall (accepted L (update L m (q k))) (comps_of (pd k))) -> sound_lib L m ->
  (forall k x, j_gain_fn (js k) x = x) -> 0 < dt -> 0 <= eps -> 0 <= M -> 0 <= s -> let g := j_gain (js 0%nat) in Forall (fun a => 0 < a /\ a * dt <= 1) g ->
  (forall k, nearly_met eps L (update L m (q k)) (v k) (js k)) -> chasing M s L m dt q v ds js ->
  forall x, 0 < x -> exists N, forall k e, (N <= k)%nat -> call L (js k) (update L m (q k)) = Ok e -> List.length e = List.length g /\ forall i, (i < List.length g)%nat -> Rabs (nth i e 0) <= (s + eps + M * dt / 2) / nth i g 0 + x.
Proof.
  intros Hp HL Hid Hdt He HM Hs0 g Hg Hn Hs x Hx. destruct (chase_loop L m os pi pd js eps M s dt q v ds Hp HL Hid Hdt Hg Hn Hs) as (h & HH & B). fold g in HH, B.
  assert (P : forall n, (n <= List.length g)%nat -> exists N, forall k i, (N <= k)%nat -> (i < n)%nat -> Rabs (nth i (h k) 0) <= (s + eps + M * dt / 2) / nth i g 0 + x).
  { induction n as [|n IH]; intros Hl; [exists 0%nat; intros; lia|]. destruct IH as (N1 & H1); [lia|]. set (a := nth n g 0). assert (Pa : 0 < a /\ a * dt <= 1) by (rewrite Forall_forall in Hg; apply (Hg a), nth_In; lia).
    set (y := Rabs (nth n (h 0%nat) 0)). assert (Py : 0 <= y) by apply Rabs_pos. set (b := 1 - a * dt). assert (Pb : 0 <= b < 1) by (unfold b; assert (0 < a * dt) by (apply Rmult_lt_0_compat; lra); lra).
    destruct (pow_lt_1_zero b ltac:(rewrite Rabs_pos_eq; lra) (x / (y + 1)) ltac:(apply Rdiv_lt_0_compat; lra)) as (N2 & H2). exists (max N1 N2). intros k i Hk Hi. destruct (Nat.eq_dec i n) as [->|Ni]; [|apply H1; lia].
    specialize (B k n ltac:(lia)). cbv zeta in B. fold a b in B. specialize (H2 k ltac:(lia)). fold a. set (c := (s + eps + M * dt / 2) / a) in *. assert (Pc : 0 <= c) by (unfold c; apply Rmult_le_pos; [assert (0 <= M * dt) by (apply Rmult_le_pos; lra); lra|apply Rlt_le, Rinv_0_lt_compat; lra]).
    assert (Pr : 0 <= b ^ k) by (apply pow_le; lra). rewrite (Rabs_pos_eq _ Pr) in H2. assert (Z : b ^ k * y <= x). { assert (b ^ k * (y + 1) <= x); [|lra]. apply Rmult_lt_compat_r with (r := y + 1) in H2; [|lra]. unfold Rdiv in H2. rewrite Rmult_assoc, Rinv_l in H2 by lra. lra. }
    replace (nth n (h k) 0) with ((nth n (h k) 0 - b ^ k * nth n (h 0%nat) 0) + b ^ k * nth n (h 0%nat) 0) by ring. eapply Rle_trans; [apply Rabs_triang|]. rewrite Rabs_mult, (Rabs_pos_eq _ Pr). fold y. assert (0 <= b ^ k * c) by (now apply Rmult_le_pos). lra. }
  destruct (P _ (le_n _)) as (N & HN). exists N. intros k e Hk Ee. destruct (HH k) as [E Le]. rewrite E in Ee. injection Ee as <-. split; [exact Le|]. intros i Hi. now apply HN.
Qed.

(** Targets of joint, position and centre-of-mass tasks. *)
Lemma retarget_moves L d j t0 e delta t t' : target_of j = Some t0 -> call L j d = Ok e -> List.length t0 = List.length e -> List.length t = List.length e -> close_by delta t' t -> moved_by delta L d (retarget t j) (retarget t' j).
Proof.
  intros Ht Ee L0 Lt Hc. split; [reflexivity|]. intros x x' Ex Ex'. pose proof (close_length _ _ _ Hc) as Lc. rewrite (retarget_value L j t0 t d e Ht Ee L0 Lt) in Ex. rewrite (retarget_value L j t0 t' d e Ht Ee L0 ltac:(unfold vec in *; congruence)) in Ex'. injection Ex as <-. injection Ex' as <-.
  clear Ht Ee. revert t0 e L0 Lt. induction Hc as [|a b t' t Hab Hc IH]; intros t0 e L0 Lt; destruct e as [|y e], t0 as [|z t0]; try discriminate; [constructor|].
  cbn in L0, Lt, Lc. cbn. constructor; [|apply IH; lia]. apply abs_between in Hab. apply abs_between. cbn. lra.
Qed.
(** Joint tasks do not curve. *)
Lemma straight_joint_task L m fm j t dt q v : joint_task fm j -> has_target j t -> j_model j = m -> keeps_scalars L m -> wf_joints m -> m_nq m = m_nv m ->
  List.length q = m_nq m -> List.length v = m_nv m -> steady 0 L dt v (fun t => update L m (vadd q (vscale t v))) j.
Proof.
  intros Hj Ht <- Hk Hw He Lq Lv. exists (-1), (dt + 1). split; [lra|]. split; [lra|].
  split; [apply (joint_task_flows L (-1) (dt + 1) (fun _ => v) (fun t => vadd q (vscale t v)) fm j t); auto; now apply straight_follows|].
  intros u J0 Jt _ E0 Et. destruct (joint_jac fm j (joint_task_facts fm j Hj) L (update L (j_model j) (vadd q (vscale u v)))) as (C & HJ & _ & Hmv). destruct (joint_jac fm j (joint_task_facts fm j Hj) L (update L (j_model j) (vadd q (vscale 0 v)))) as (C' & HJ' & _ & Hmv').
  rewrite Et in HJ. injection HJ as ->. rewrite E0 in HJ'. injection HJ' as ->. rewrite Hmv, Hmv' by exact Lv. apply close_refl. lra.
Qed.
