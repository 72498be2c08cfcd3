(** Closed loop: solve and integrate. *)
From Verif Require Import Base Lin LinFacts Mjx Typing Component Problem SpecComponent SpecJoint SpecHistory SpecProblem SpecShape SpecFit BindFacts JointFacts Conf JaxComponents LocalIK SpecQP SpecMotion SpecLoop.
From Verif Require Import MotionFacts MotionFacts2 LoopFacts QPFacts QPThms QPThms2 QPThms3 QPThms4 FitFacts FitFacts3 SpecSolve SolveFacts SolveThms SpecDescent DescentFacts DescentFacts2.
Open Scope R_scope.
Local Opaque dot.

Lemma frob_row J r : In r J -> frob2 J = 0 -> sq r = 0.
Proof.
  intros Hr H. assert (G : forall J, 0 <= frob2 J) by apply frob2_nonneg. unfold frob2 in *. induction J as [|a J IH]; [destruct Hr|]. cbn in H, Hr. pose proof (G J) as G1. pose proof (sq_nonneg a) as G2. unfold sq in *. cbn in *. destruct Hr as [<-|Hr]; [lra|]. apply IH; auto. lra.
Qed.
Lemma jb_frob fm j L d J : jb_facts fm j -> selected (j_model j) fm <> [] -> jacobian L j d = Ok J -> frob2 J <> 0.
Proof.
  intros Hj Hs HJ Z. destruct (jbar_jac fm j Hj L d) as (C & HJ' & MC & Hmv). rewrite HJ in HJ'. injection HJ' as ->. destruct Hj as (Hw & _). pose proof (dofs_in (j_model j) fm Hw) as D.
  specialize (Hmv (repeat 1 (m_nv (j_model j))) (repeat_length _ _)). destruct (selected (j_model j) fm) as [|k l] eqn:E; [now elim Hs|]. unfold sel_vel in Hmv. rewrite E in Hmv. destruct C as [|r C]; [discriminate|]. cbn in Hmv, D. injection Hmv as Hr _. inversion D; subst.
  assert (Sr : sq r = 0) by (apply (frob_row ((r :: C) ++ mneg (r :: C))); [now left|exact Z]). rewrite (SolveFacts.sq_zero r Sr), dot_vzero_l in Hr. match type of Hr with _ = nth ?i (repeat 1 ?n) 0 => assert (K : nth i (repeat 1 n) 0 = 1) by (apply (repeat_spec n 1), nth_In; now rewrite repeat_length) end. lra.
Qed.
Lemma joint_barrier_frob fm j L d J : joint_barrier fm j -> selected (j_model j) fm <> [] -> jacobian L j d = Ok J -> frob2 J <> 0.
Proof. intros Hj. apply jb_frob. now apply joint_barrier_facts. Qed.

Section Loop.
Context (L : lib) (m : mjmodel) (os : list wop) (pi : nat) (pd : jdata) (So : qpsolver) (dt : R).
Context (Ht : tidy m os) (Hc : compiled_by os pi pd) (HL : sound_lib L m) (Hd : forall x, List.length x = m_nq m -> wf_data m (update L m x)) (Hk : keeps_scalars L m) (Hdt : 0 < dt).
Context (Hp : Forall (posture m dt) (comps_of pd)) (Hn : Forall nonneg_weights (comps_of pd)) (Hlo : vle (jd_vmin pd) (vzero (m_nv m))) (Hhi : vle (vzero (m_nv m)) (jd_vmax pd)).
Context (HS : forall q Q, List.length q = m_nq m -> Forall (unviolated L (update L m q)) (comps_of pd) -> assemble L m pd (update L m q) = Ok Q -> minimises So Q).

Lemma po_model j : In j (comps_of pd) -> j_model j = m.
Proof. intros Hj. destruct (program_components m os pi pd Ht Hc) as (_ & _ & _ & F). rewrite Forall_forall in F. now apply F. Qed.
Lemma po_accepted d : Forall (accepted L d) (comps_of pd).
Proof.
  rewrite Forall_forall in *. intros j Hj. pose proof (po_model j Hj) as Em. destruct (Hp j Hj) as [fm t g H1 (W & lm & qi & E) _ _|fm lo hi H1 (s & qi & E) L1 L2 _ _ _].
  - unfold accepted. rewrite E. now exists t.
  - unfold accepted. rewrite E. apply joint_barrier_facts in H1. destruct H1 as (_ & _ & _ & _ & _ & s' & lo' & hi' & E'). rewrite E in E'. injection E' as <- <- <- ->. unfold qidx_of. rewrite map_length, Em. split; [exists lo|exists hi]; auto.
Qed.
Lemma po_frob d j J : In j (comps_of pd) -> is_barrier j = true -> jacobian L j d = Ok J -> frob2 J <> 0.
Proof.
  intros Hj Hb HJ. rewrite Forall_forall in Hp. destruct (Hp j Hj) as [fm t g _ (W & lm & qi & E) _ _|fm lo hi H1 _ _ _ Hs _ _].
  - unfold is_barrier in Hb. rewrite E in Hb. discriminate.
  - apply (joint_barrier_frob fm j L d J); auto. now rewrite (po_model j Hj).
Qed.
Lemma po_rest q : Forall (unviolated L (update L m q)) (comps_of pd) -> may_rest L (update L m q) pd.
Proof.
  intros Hu. destruct (program_components m os pi pd Ht Hc) as (Em & _). unfold may_rest. rewrite Em. split; [exact Hlo|]. split; [exact Hhi|]. rewrite Forall_forall in *. intros j Hj. destruct (Hp j Hj) as [fm t g _ (W & lm & qi & E) _ _|fm lo hi _ (s & qi & E) _ _ _ Hg Ha].
  - split; unfold is_barrier, is_hard; rewrite E; discriminate.
  - split; [|unfold is_hard; rewrite E; discriminate]. intros Hb. split; [|split; [intros x; now rewrite Hg|now apply Hu]].
    unfold vnonneg. eapply Forall_impl; [|exact Ha]. intros a [Ha1 _]. cbv beta in *. destruct (Rle_dec 0 a) as [|N]; [assumption|]. exfalso. nra.
Qed.
Lemma po_step q v0 : List.length q = m_nq m -> Forall (unviolated L (update L m q)) (comps_of pd) ->
  exists s v q', solve L So m (tvec q) v0 pd = Ok (s, v) /\ best L (update L m q) pd v /\ integrate m q v dt = Ok q' /\ List.length q' = m_nq m /\ Forall (unviolated L (update L m q')) (comps_of pd) /\
  forall x, energy L (update L m q) (comps_of pd) x -> exists x', energy L (update L m q') (comps_of pd) x' /\ x' <= x.
Proof.
  intros Lq Hu. pose proof (po_rest q Hu) as R. pose proof (po_accepted (update L m q)) as A.
  destruct (program_rest L m os pi pd Ht Hc HL So (tvec q) v0 (f_equal (fun k => [k]) Lq) (Hd q Lq) A (po_frob (update L m q)) (fun Q => HS q Q Lq Hu) R) as (s & v & x & y & E1 & B & _).
  cbn [t_data tvec] in B. destruct (program_shaped L m os pi pd Ht Hc HL (update L m q) (Hd q Lq) A) as (Env & Sh & _).
  assert (A0 : admissible L (update L m q) pd (vzero (m_nv (jd_model pd)))) by (apply rest_admissible; auto).
  pose proof (proj1 (proj1 B)) as Lv. rewrite <- Env in Lv. pose proof (sound_wf m (proj1 Ht)) as Hw.
  destruct (integrate_spec m Hw q v dt Lq Lv) as (q' & Hi & Lq' & _). exists s, v, q'. split; [exact E1|]. split; [exact B|]. split; [exact Hi|]. split; [exact Lq'|]. split.
  - rewrite Forall_forall. intros j Hj Hb e He. pose proof (po_model j Hj) as Em. rewrite Forall_forall in Hp. destruct (Hp j Hj) as [fm t g _ (W & lm & qi & E) _ _|fm lo hi H1 H2 L1 L2 _ Hg Ha].
    + unfold is_barrier in Hb. rewrite E in Hb. discriminate.
    + pose proof (Hk q Lq) as K. pose proof (Hk q' Lq') as K'. rewrite <- Em in *. destruct (joint_barrier_motion fm j lo hi H1 H2 L q (update L (j_model j) q) Lq K L1 L2) as (J & Ec & EJ & _ & MJ & Eg & M).
      destruct (M v dt Lv) as (q2 & Hi2 & _ & _ & Ec'). rewrite Hi in Hi2. injection Hi2 as <-. rewrite (Ec' _ K') in He. injection He as <-.
      rewrite Forall_forall in Hu. specialize (Hu j Hj Hb _ Ec). destruct B as ((_ & _ & _ & C) & _). rewrite Forall_forall in C. destruct (C j Hj) as [C1 _]. specialize (C1 Hb J _ EJ Ec).
      unfold gained in C1. rewrite (map_ext _ (fun x => x)) in C1 by exact Hg. eapply vnonneg_vle; [apply cbf_step; [left; exact Hdt|exact Eg|exact Ha|exact C1]|]. apply vnonneg_vmul; [|exact Hu].
      rewrite Forall_map. eapply Forall_impl; [|exact Ha]. intros a K2. cbv beta in *. lra.
  - intros x0. apply (energy_step L _ _ pd dt v x0 B A0 Sh Hn); [lra|]. rewrite Forall_forall in *. intros j Hj Sk. pose proof (po_model j Hj) as Em. destruct (Hp j Hj) as [fm t g H1 H2 U Hg|fm lo hi _ (s' & qi & E) _ _ _ _ _].
    + split; [|exists g; auto]. intros e J Ee EJ. pose proof (Hk q Lq) as K. pose proof (Hk q' Lq') as K'. rewrite <- Em in *. destruct (joint_task_motion fm j t H1 H2 L q (update L (j_model j) q) Lq K) as (J' & Ec & EJ' & _ & _ & _ & M).
      rewrite EJ in EJ'. injection EJ' as <-. rewrite Ee in Ec. injection Ec as ->. destruct (M v dt Lv) as (_ & q2 & Hi2 & _ & _ & Ec'). rewrite Hi in Hi2. injection Hi2 as <-. now apply Ec'.
    + unfold seeks in Sk. rewrite E in Sk. discriminate.
Qed.
Lemma po_energy q : List.length q = m_nq m -> exists x, energy L (update L m q) (comps_of pd) x.
Proof.
  intros Lq. assert (G : exists xs, Forall2 (energy_of L (update L m q)) (comps_of pd) xs).
  { assert (F : Forall (fun j => exists x, energy_of L (update L m q) j x) (comps_of pd)).
    { rewrite Forall_forall in *. intros j Hj. pose proof (po_model j Hj) as Em. destruct (Hp j Hj) as [fm t g H1 H2 U _|fm lo hi _ (s' & qi & E) _ _ _ _ _].
      - pose proof (Hk q Lq) as K. rewrite <- Em in *. destruct (joint_task_motion fm j t H1 H2 L q (update L (j_model j) q) Lq K) as (J & Ec & _). destruct H2 as (W & lm & qi & E). eexists. eapply en_seeks; [unfold seeks; now rewrite E|exact Ec|exact U].
      - exists 0. apply en_other. unfold seeks. now rewrite E. }
    clear - F. induction F as [|j js (x & Hx) _ (xs & IH)]; [exists []; constructor|exists (x :: xs); now constructor]. }
  destruct G as (xs & F). exists (vsum xs), xs. auto.
Qed.
Lemma po_energy_fun q x y : List.length q = m_nq m -> energy L (update L m q) (comps_of pd) x -> energy L (update L m q) (comps_of pd) y -> x = y.
Proof.
  intros Lq (xs & Fx & ->) (ys & Fy & ->). f_equal.
  assert (F : forall j x y, In j (comps_of pd) -> energy_of L (update L m q) j x -> energy_of L (update L m q) j y -> x = y).
  { intros j u w Hj Hu Hw. rewrite Forall_forall in Hp. pose proof (po_model j Hj) as Em. destruct (Hp j Hj) as [fm t g H1 H2 U _|fm lo hi _ (s' & qi & E) _ _ _ _ _].
    - apply (energy_fun L j u w (update L m q)); auto; [intros; now exists g|]. intros e He. pose proof (Hk q Lq) as K. rewrite <- Em in *. destruct (joint_task_motion fm j t H1 H2 L q (update L (j_model j) q) Lq K) as (J & Ec & _ & _ & _ & Eg & _).
      rewrite He in Ec. injection Ec as ->. exact Eg.
    - assert (S : seeks j = false) by (unfold seeks; now rewrite E). inversion Hu; inversion Hw; congruence. }
  clear - F Fx Fy. revert F ys Fy. induction Fx as [|j u js xs Hj _ IH]; intros F ys Fy; inversion Fy; subst; [reflexivity|]. f_equal; [apply (F j); auto; now left|]. apply IH; auto. intros j' a b Hi. apply F. now right.
Qed.
Lemma po_loop_step q0 (q v : nat -> vec) : q 0%nat = q0 -> List.length q0 = m_nq m -> Forall (unviolated L (update L m q0)) (comps_of pd) -> solve_loop L So m pd dt q v ->
  forall k, List.length (q k) = m_nq m /\ Forall (unviolated L (update L m (q k))) (comps_of pd) /\ best L (update L m (q k)) pd (v k) /\
    forall x, energy L (update L m (q k)) (comps_of pd) x -> exists x', energy L (update L m (q (S k))) (comps_of pd) x' /\ x' <= x.
Proof.
  intros E0 L0 U0 Hl. assert (G : forall k, List.length (q k) = m_nq m /\ Forall (unviolated L (update L m (q k))) (comps_of pd)).
  { induction k as [|k [IL IU]]; [now rewrite E0|]. destruct (Hl k) as ((v0 & s & E1) & E2). destruct (po_step (q k) v0 IL IU) as (s' & v' & q' & S1 & _ & S2 & S3 & S4 & _).
    rewrite E1 in S1. injection S1 as <- <-. rewrite E2 in S2. injection S2 as <-. auto. }
  intros k. destruct (G k) as [IL IU]. split; [exact IL|]. split; [exact IU|]. destruct (Hl k) as ((v0 & s & E1) & E2). destruct (po_step (q k) v0 IL IU) as (s' & v' & q' & S1 & SB & S2 & _ & _ & S5).
  rewrite E1 in S1. injection S1 as <- <-. rewrite E2 in S2. injection S2 as <-. auto.
Qed.
(** From every configuration within the limits, the loop runs for ever, keeps the limits, and its energy never grows. *)
Lemma posture_loop q0 : List.length q0 = m_nq m -> Forall (unviolated L (update L m q0)) (comps_of pd) ->
  (exists q v, q 0%nat = q0 /\ solve_loop L So m pd dt q v) /\
  forall q v, q 0%nat = q0 -> solve_loop L So m pd dt q v ->
    (forall k, Forall (unviolated L (update L m (q k))) (comps_of pd) /\ exists x, energy L (update L m (q k)) (comps_of pd) x) /\
    forall k l x y, (k <= l)%nat -> energy L (update L m (q k)) (comps_of pd) x -> energy L (update L m (q l)) (comps_of pd) y -> y <= x.
Proof.
  intros L0 U0. split.
  - set (v0 := vzero (m_nv m)).
    pose (nxt := fun q => match solve L So m (tvec q) v0 pd with Ok (_, v) => match integrate m q v dt with Ok q' => q' | Err _ => q end | Err _ => q end).
    pose (vel := fun q => match solve L So m (tvec q) v0 pd with Ok (_, v) => v | Err _ => [] end).
    assert (N : forall x s v q', solve L So m (tvec x) v0 pd = Ok (s, v) -> integrate m x v dt = Ok q' -> nxt x = q' /\ vel x = v) by (intros x s v q' S1 S2; unfold nxt, vel; now rewrite S1, S2).
    clearbody nxt vel. exists (fun k => Nat.iter k nxt q0), (fun k => vel (Nat.iter k nxt q0)). split; [reflexivity|].
    assert (G : forall k, List.length (Nat.iter k nxt q0) = m_nq m /\ Forall (unviolated L (update L m (Nat.iter k nxt q0))) (comps_of pd)).
    { induction k as [|k [IL IU]]; [now split|]. destruct (po_step _ v0 IL IU) as (s & v & q' & S1 & _ & S2 & S3 & S4 & _).
      change (Nat.iter (S k) nxt q0) with (nxt (Nat.iter k nxt q0)). destruct (N _ _ _ _ S1 S2) as [-> _]. auto. }
    intros k. destruct (G k) as [IL IU]. destruct (po_step _ v0 IL IU) as (s & v & q' & S1 & _ & S2 & _). change (Nat.iter (S k) nxt q0) with (nxt (Nat.iter k nxt q0)). destruct (N _ _ _ _ S1 S2) as [-> ->]. split; [now exists v0, s|exact S2].
  - intros q v E0 Hl. pose proof (po_loop_step q0 q v E0 L0 U0 Hl) as G. split; [intros k; split; [apply G|apply po_energy, G]|].
    intros k l x y Hkl Hx Hy. assert (C : exists z, energy L (update L m (q l)) (comps_of pd) z /\ z <= x).
    { clear Hy. induction Hkl as [|l Hkl IH]; [exists x; split; [exact Hx|lra]|]. destruct IH as (z & Z1 & Z2). destruct (G l) as (_ & _ & _ & G4). destruct (G4 z Z1) as (z' & Z3 & Z4). exists z'. split; [exact Z3|lra]. }
    destruct C as (z & Z1 & Z2). now rewrite (po_energy_fun (q l) y z (proj1 (G l)) Hy Z1).
Qed.
End Loop.
