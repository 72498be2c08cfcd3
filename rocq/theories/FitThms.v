(** Corollaries for whole programs. *)
From Verif Require Import Base Lin LinFacts Mjx Typing Component Problem SpecComponent SpecJoint SpecHistory SpecCollision SpecTree SpecShape SpecContact SpecSelf SpecMotion SpecConf Rot Conf FrameJac Collide JaxComponents LocalIK SpecQP SpecLoop SpecProblem SpecValue SpecFit.
From Verif Require Import ComponentFacts ComponentFacts2 JointFacts BindFacts BindFacts2 BindFacts3 MotionFacts MotionFacts2 LoopFacts QPThms4 FitFacts FitFacts2 FitFacts3.
Open Scope R_scope.

Lemma program_shapes L m os pi pd d : tidy m os -> compiled_by os pi pd -> sound_lib L m -> wf_data m d -> Forall (accepted L d) (comps_of pd) ->
  jd_model pd = m /\ Forall (shapes_fit L d) (comps_of pd) /\ Forall (fits L (m_nv m) d) (comps_of pd).
Proof. intros Ht Hc HL Hd Ha. split; [apply (program_components m os pi pd Ht Hc)|]. now apply (program_fits L m os pi pd d). Qed.

Lemma program_limits L m os pi pd fm j lo hi dt (q v : nat -> vec) :
  tidy m os -> compiled_by os pi pd -> sound_lib L m ->
  (forall x, List.length x = m_nq m -> wf_data m (update L m x) /\ Forall (accepted L (update L m x)) (comps_of pd)) ->
  joint_barrier fm j -> In j (comps_of pd) -> has_limits j lo hi ->
  keeps_scalars L m -> (forall x, j_gain_fn j x = x) -> 0 <= dt -> Forall (fun a => 0 <= a * dt <= 1) (j_gain j) ->
  safe_loop L m pd dt q v ->
  (forall k, vle (vmul (decay (j_gain j) dt k) (slack lo hi (sel_pos m fm (q 0%nat)))) (slack lo hi (sel_pos m fm (q k)))) /\
  (within lo hi (sel_pos m fm (q 0%nat)) -> forall k, within lo hi (sel_pos m fm (q k))).
Proof.
  intros Ht Hc HL HA Hj Hin Hl Hk Hid Hdt Hg Hs. destruct (program_components m os pi pd Ht Hc) as (Em & V1 & V2 & F).
  assert (Hm : j_model j = m) by (rewrite Forall_forall in F; apply (F j Hin)).
  pose proof Hs as [Q0 Hs'].
  pose proof (joint_barrier_facts fm j Hj) as (_ & _ & _ & _ & _ & s & lo' & hi' & E). destruct Hl as (s' & qi & E'). rewrite E in E'. injection E' as -> -> -> <-.
  destruct (HA (q 0%nat) Q0) as [_ A0]. rewrite Forall_forall in A0. specialize (A0 j Hin). unfold accepted in A0. rewrite E in A0. destruct A0 as ((l & El & Ll) & (h & Eh & Lh)). injection El as _ <-. injection Eh as _ <-.
  unfold qidx_of in Ll, Lh. rewrite map_length in Ll, Lh. rewrite Hm in Ll, Lh. assert (HL' : has_limits j lo hi) by (exists s', (qidx_of (j_model j) fm); exact E).
  assert (Lq : forall k, List.length (q k) = m_nq m).
  { induction k as [|k IH]; [exact Q0|]. destruct (Hs' k) as (Q & _ & Lv & _ & Hi). rewrite <- Hm in *.
    destruct (joint_barrier_motion fm j lo hi Hj HL' L (q k) (update L (j_model j) (q k)) IH (Hk _ IH) Ll Lh) as (J & _ & _ & _ & _ & _ & M).
    destruct (M (v k) dt Lv) as (q' & Hi' & Lq' & _). rewrite Hi in Hi'. injection Hi' as <-. exact Lq'. }
  subst m. apply (limits_invariant L fm j lo hi pd dt q v); auto; try (rewrite Em; assumption).
  all: try (now rewrite Hm).
  intros k. destruct (HA (q k)) as [D A]; [apply Lq|]. destruct (program_fits L _ os pi pd _ Ht Hc HL D A) as [_ F2].
  eapply Forall_impl; [|exact F2]. intros x. apply fits_shaped.
Qed.
