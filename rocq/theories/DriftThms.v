(** C127: a lone task whose Jacobian is computed by differentiation. *)
From Coq Require Import Lia.
From Verif Require Import Base Lin LinFacts Mjx Typing Component Problem SpecComponent SpecJoint SpecHistory SpecMotion SpecConf Rot Conf FrameJac JaxComponents LocalIK SpecTree SpecShape SpecValue SpecDeriv SpecQP SpecSolve SpecDescent SpecFit.
From Verif Require Import MotionFacts2 ConfFacts ConfFacts4 DerivFacts DerivThms DerivThms2 DescentFacts DescentFacts2.
Open Scope R_scope.

Lemma lone_scaled L pd j q v g n J c : 0 <= c -> comps_of pd = [j] -> seeks j = true -> uniform g j -> nonneg_weights j -> well_shaped L (m_nv (jd_model pd)) (update L (j_model j) q) j ->
  best L (update L (j_model j) q) pd v -> admissible L (update L (j_model j) q) pd (vzero (m_nv (jd_model pd))) ->
  (forall t, List.length (value_after L j q v t) = n) -> call L j (update L (j_model j) q) = Ok (value_after L j q v 0) ->
  jacobian L j (update L (j_model j) q) = Ok J -> (forall k, (k < n)%nat -> derivative_at_0 (fun t => nth k (value_after L j q v t) 0) (c * nth k (mv J v) 0)) ->
  exists l, derivative_at_0 (fun t => g / 2 * sq (mv (weight_of j) (value_after L j q v t))) l /\ l <= - c * sq (mv (weight_of j) (mv J v)).
Proof.
  intros Pc Hc Hs Hu Hn Hw Hb H0 Hl He HJ Hr. destruct (Hw J _ HJ He) as [[LJ _] Lg]. rewrite Hl in LJ.
  destruct (best_progress L _ pd v Hb H0) as (ps & Fp & Hp); [rewrite Hc; now constructor|rewrite Hc; now constructor|].
  rewrite Hc in Fp. inversion Fp as [|? p ? ps' P Fn]; subst. inversion Fn; subst. cbn in Hp. inversion P as [J' e' _ HJ' He'|S']; subst; [|congruence].
  rewrite HJ in HJ'. injection HJ' as <-. rewrite He in He'. injection He' as <-. cbn in Hp. rewrite (gained_uniform g j _ Hu Lg), mv_scaled, dot_vscale_l in Hp.
  exists (g * dot (mv (weight_of j) (value_after L j q v 0)) (mv (weight_of j) (vscale c (mv J v)))). split.
  - apply (lim_sq (-1) 1 (List.length J) _ 0 (vscale c (mv J v))); [lra|intros s _; now rewrite Hl|now rewrite vscale_length, mv_length|]. intros i Hi'. rewrite nth_vscale. apply Hr. lia.
  - rewrite mv_scaled, dot_vscale_r. set (A := dot _ _) in *. set (B := sq _) in *. nra.
Qed.
Section Lone.
Context (L : lib) (pd : jdata) (j : jaxc) (k : nat) (q v : vec) (g : R).
Notation m := (j_model j).
Context (HD : sound_jac (l_jacrev L)) (Ha : automatic j) (Hk : kinematic L j) (Hw : wf_joints m) (Hs : smooth L j k q) (Hq : List.length q = m_nq m)
  (Hc : comps_of pd = [j]) (Em : jd_model pd = m) (Se : seeks j = true) (Hu : uniform g j) (Hn : nonneg_weights j) (Hg : List.length (j_gain j) = k)
  (Hb : best L (update L m q) pd v) (H0 : admissible L (update L m q) pd (vzero (m_nv m))).
Lemma lone_automatic J c : 0 <= c -> normalised m q -> jacobian L j (update L m q) = Ok J -> is_mat k (m_nv m) J -> (forall i, (i < k)%nat -> derivative_at_0 (fun t => nth i (value_after L j q v t) 0) (c * nth i (mv J v) 0)) ->
  exists l, derivative_at_0 (fun t => g / 2 * sq (mv (weight_of j) (value_after L j q v t))) l /\ l <= 0.
Proof using All.
  intros Pc Hnq EJ MJ R. assert (Lv : List.length v = m_nv m) by (rewrite <- Em; exact (proj1 (proj1 Hb))). destruct Hs as [V _].
  assert (I0 : integrate m q v 0 = Ok q) by now apply integrate_now.
  destruct (lone_scaled L pd j q v g k J c Pc Hc) as (l & Dl & Ll); auto.
  - rewrite Em. intros J' e EJ' Ee. rewrite EJ in EJ'. injection EJ' as <-. destruct (V q Hq) as (e' & Ee' & Le). rewrite Ee in Ee'. injection Ee' as <-. rewrite Le. split; [exact MJ|exact Hg].
  - now rewrite Em.
  - intros s. unfold value_after, value_at. destruct (integrate_length m q v s Hw Hq Lv) as (q' & -> & Lq'). now destruct (V q' Lq') as (e & -> & Le).
  - unfold value_after, value_at. rewrite I0. now destruct (V q Hq) as (e & -> & Le).
  - exists l. split; [exact Dl|]. pose proof (QPThms3.sq_nonneg (mv (weight_of j) (mv J v))). nra.
Qed.
Theorem lone_scalar : m_nq m = m_nv m -> keeps_scalars L m -> exists l, derivative_at_0 (fun t => g / 2 * sq (mv (weight_of j) (value_after L j q v t))) l /\ l <= 0.
Proof using All.
  intros En Ks. assert (Lv : List.length v = m_nv m) by (rewrite <- Em; exact (proj1 (proj1 Hb))).
  destruct (automatic_scalar L j k q v HD Ha Hk Hw Hs Hq En Ks Lv) as (J & EJ & MJ & R). apply (lone_automatic J 1); auto; [lra|now apply scalar_normalised|]. intros i Hi. rewrite Rmult_1_l. now apply R.
Qed.
Theorem lone_turning : normalised m q -> d_qpos (update L m q) = q -> only_turns m v -> exists l, derivative_at_0 (fun t => g / 2 * sq (mv (weight_of j) (value_after L j q v t))) l /\ l <= 0.
Proof using All.
  intros Hnq Hd Ho. assert (Lv : List.length v = m_nv m) by (rewrite <- Em; exact (proj1 (proj1 Hb))).
  destruct (turning_twice L j k q v HD Ha Hk Hw Hs Hq Hnq Hd Lv Ho) as (J & EJ & MJ & R). apply (lone_automatic J (1 / 2)); auto; [lra|]. intros i Hi. destruct (R i Hi) as (l & Dl & El). replace (1 / 2 * nth i (mv J v) 0) with l by lra. exact Dl.
Qed.
End Lone.
