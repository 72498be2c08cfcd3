(** C127, C128, C129: the motion with the turning of ball and free joints doubled. *)
From Coq Require Import Lia.
From Verif Require Import Base Lin LinFacts Mjx Typing Component Problem SpecComponent SpecJoint SpecHistory SpecMotion SpecConf Rot Conf FrameJac JaxComponents LocalIK Witness SpecTree SpecShape SpecValue SpecDeriv SpecQP SpecSolve SpecDescent SpecFit SpecProblem SpecDrift.
From Verif Require Import MotionFacts2 ConfFacts ConfFacts4 DerivFacts DerivThms DerivThms2 DescentFacts DescentFacts2 DriftThms DriftSolve CrossThms SlipThms.
Open Scope R_scope.

Lemma lone_other L pd j q v w g n J : comps_of pd = [j] -> seeks j = true -> uniform g j -> nonneg_weights j -> well_shaped L (m_nv (jd_model pd)) (update L (j_model j) q) j ->
  best L (update L (j_model j) q) pd v -> admissible L (update L (j_model j) q) pd (vzero (m_nv (jd_model pd))) ->
  (forall t, List.length (value_after L j q w t) = n) -> call L j (update L (j_model j) q) = Ok (value_after L j q w 0) ->
  jacobian L j (update L (j_model j) q) = Ok J -> (forall k, (k < n)%nat -> derivative_at_0 (fun t => nth k (value_after L j q w t) 0) (nth k (mv J v) 0)) ->
  exists l, derivative_at_0 (fun t => g / 2 * sq (mv (weight_of j) (value_after L j q w t))) l /\ l <= - sq (mv (weight_of j) (mv J v)).
Proof.
  intros Hc Hs Hu Hn Hw Hb H0 Hl He HJ Hr. destruct (Hw J _ HJ He) as [[LJ _] Lg]. rewrite Hl in LJ.
  destruct (best_progress L _ pd v Hb H0) as (ps & Fp & Hp); [rewrite Hc; now constructor|rewrite Hc; now constructor|].
  rewrite Hc in Fp. inversion Fp as [|? p ? ps' P Fn]; subst. inversion Fn; subst. cbn in Hp. inversion P as [J' e' _ HJ' He'|S']; subst; [|congruence].
  rewrite HJ in HJ'. injection HJ' as <-. rewrite He in He'. injection He' as <-. cbn in Hp. rewrite (gained_uniform g j _ Hu Lg), mv_scaled, dot_vscale_l in Hp.
  exists (g * dot (mv (weight_of j) (value_after L j q w 0)) (mv (weight_of j) (mv J v))). split.
  - apply (lim_sq (-1) 1 (List.length J) _ 0 (mv J v)); [lra|intros s _; now rewrite Hl|now rewrite mv_length|]. intros i Hi'. apply Hr. lia.
  - set (A := dot _ _) in *. set (B := sq _) in *. lra.
Qed.
Section Double.
Context (L : lib) (os : list wop) (pi : nat) (pd : jdata) (So : qpsolver) (q v0 v w : vec) (s : qpsol) (j : jaxc) (k : nat).
Notation m := (j_model j).
Context (Ht : tidy m os) (Hc : compiled_by os pi pd) (HL : sound_lib L m) (Hq : List.length q = m_nq m) (Hd : wf_data m (update L m q)) (Hacc : Forall (accepted L (update L m q)) (comps_of pd))
  (HS : exact_at L So m pd (update L m q)) (E : solve L So m (tvec q) v0 pd = Ok (s, v)) (HD : sound_jac (l_jacrev L)) (Ha : automatic j) (Hk : kinematic L j) (Hw : wf_joints m) (Hs : smooth L j k q)
  (Hj : In j (comps_of pd)) (Em : jd_model pd = m) (Hn : normalised m q) (Hdq : d_qpos (update L m q) = q) (Tw : turns_twice m v w).
Lemma double_rates : (exists u, admissible L (update L m q) pd u) -> best L (update L m q) pd v /\ List.length v = m_nv m /\
  exists J, jacobian L j (update L m q) = Ok J /\ is_mat k (m_nv m) J /\ forall i, (i < k)%nat -> derivative_at_0 (fun t => nth i (value_after L j q w t) 0) (nth i (mv J v) 0).
Proof using All.
  intros He. pose proof (returned_best L m os pi pd So q v0 Ht Hc HL Hq Hd Hacc HS s v He E) as B. assert (Lv : List.length v = m_nv m) by (rewrite <- Em; exact (proj1 (proj1 B))).
  split; [exact B|]. split; [exact Lv|]. now apply automatic_along_motion.
Qed.
Theorem double_kept i : (exists u, admissible L (update L m q) pd u) -> is_barrier j = true -> j_gain_fn j 0 = 0 -> (i < k)%nat -> nth i (value_at L j q) 0 = 0 ->
  exists l, derivative_at_0 (fun t => nth i (value_after L j q w t) 0) l /\ 0 <= l.
Proof using All.
  intros He Bj G0 Hi Z. destruct (double_rates He) as (B & Lv & J & EJ & MJ & R). exists (nth i (mv J v) 0). split; [now apply R|]. eapply kept; eauto. exact (proj1 B).
Qed.
Theorem double_held i : (exists u, admissible L (update L m q) pd u) -> is_hard j = true -> j_gain_fn j 0 = 0 -> (i < k)%nat -> nth i (value_at L j q) 0 = 0 ->
  derivative_at_0 (fun t => nth i (value_after L j q w t) 0) 0.
Proof using All.
  intros He Bj G0 Hi Z. destruct (double_rates He) as (B & Lv & J & EJ & MJ & R). pose proof (R i Hi) as K. replace (nth i (mv J v) 0) with 0 in K; [exact K|]. symmetry. eapply held; eauto. exact (proj1 B).
Qed.
Theorem double_lone g : comps_of pd = [j] -> seeks j = true -> uniform g j -> nonneg_weights j -> List.length (j_gain j) = k -> admissible L (update L m q) pd (vzero (m_nv m)) ->
  exists l, derivative_at_0 (fun t => g / 2 * sq (mv (weight_of j) (value_after L j q w t))) l /\ l <= 0.
Proof using All.
  intros Ec Se Hu Hnw Hg H0. destruct double_rates as (B & Lv & J & EJ & MJ & R); [eexists; exact H0|]. assert (Lw : List.length w = m_nv m) by (rewrite <- Lv; exact (proj1 Tw)).
  assert (I0 : integrate m q w 0 = Ok q) by now apply integrate_now. destruct Hs as [V _].
  destruct (lone_other L pd j q v w g k J Ec) as (l & Dl & Ll); auto.
  - rewrite Em. intros J' e EJ' Ee. rewrite EJ in EJ'. injection EJ' as <-. destruct (V q Hq) as (e' & Ee' & Le). rewrite Ee in Ee'. injection Ee' as <-. rewrite Le. split; [exact MJ|exact Hg].
  - now rewrite Em.
  - intros t. unfold value_after, value_at. destruct (integrate_length m q w t Hw Hq Lw) as (q' & -> & Lq'). now destruct (V q' Lq') as (e & -> & Le).
  - unfold value_after, value_at. rewrite I0. now destruct (V q Hq) as (e & -> & Le).
  - exists l. split; [exact Dl|]. pose proof (QPThms3.sq_nonneg (mv (weight_of j) (mv J v))). lra.
Qed.
End Double.
