(** Shapes of the arrays of compiled components: remaining kinds, and programs. *)
From Verif Require Import Base Lin LinFacts Mjx Typing Component Problem SpecComponent SpecJoint SpecHistory SpecCollision SpecTree SpecShape SpecContact SpecSelf SpecMotion SpecConf Rot Conf FrameJac Collide JaxComponents LocalIK SpecQP SpecProblem SpecValue SpecFit.
From Verif Require Import ComponentFacts ComponentFacts2 ApiSteps JointFacts BindFacts BindFacts2 BindFacts3 CoreFacts CompThms BindThms BindThms2 CollideFacts CollideFacts2 CollideFacts3 CollideFacts4.
From Verif Require Import QPFacts MotionFacts MotionFacts2 FrameFacts ConfFacts ConfFacts3 ConfThms ValueFacts ValueFacts2 ValueFacts3 ValueFacts4 ProblemFacts ShareFacts FitFacts.
Open Scope R_scope.
#[local] Arguments update_model : simpl never.

(** ** The model of a bound component *)
Lemma constructed_unbound c : constructed c -> a_model (c_at c) = None.
Proof.
  intros H. inversion H; subst.
  - unfold new_com_task in H0. destruct mk as [k|]; [destruct (mk_shape k) as [|n r]; [discriminate|]; destruct (Nat.eqb n 3); [|discriminate]|]; cbn [bind] in H0;
      (destruct (init_task _ _ _ _ _ _ _) as [a|] eqn:E; [|discriminate]); apply init_task_mask in E; cbn [bind] in H0; injection H0 as <-; cbn; tauto.
  - unfold new_position_task in H0. destruct (init_task _ _ _ _ _ _ _) as [a|] eqn:E; [|discriminate]. apply init_task_mask in E. cbn [bind] in H0. injection H0 as <-. cbn. tauto.
  - unfold new_frame_task in H0. destruct (init_task _ _ _ _ _ _ _) as [a|] eqn:E; [|discriminate]. apply init_task_mask in E. cbn [bind] in H0. injection H0 as <-. cbn. tauto.
  - unfold new_joint_task in H0. destruct (init_task _ _ _ _ _ _ _) as [a|] eqn:E; [|discriminate]. apply init_task_mask in E. cbn [bind] in H0. injection H0 as <-. cbn. tauto.
  - unfold new_custom_task in H0. destruct (init_task _ _ _ _ _ _ _) as [a|] eqn:E; [|discriminate]. apply init_task_mask in E. cbn [bind] in H0. injection H0 as <-. cbn. tauto.
  - match goal with X : new_position_barrier _ _ _ _ _ _ _ _ _ _ = Ok _ |- _ => destruct (pbar_new_from _ _ _ _ _ _ _ _ _ _ _ X) as (lt0 & a0 & _ & _ & N & _ & _ & S) end. clear - N S. induction S as [u v Y|u|u v w S1 IH1 S2 IH2]; [destruct (astep_object _ _ Y) as [_ B]; congruence|exact N|auto].
  - unfold new_joint_barrier, init_barrier in H0. destruct (init_component _ _ _ _ _) as [a|] eqn:E; [|discriminate]. apply init_comp_mask in E. cbn [bind] in H0. injection H0 as <-. cbn. tauto.
  - unfold new_self_collision, init_barrier in H0. destruct (init_component _ _ _ _ _) as [a|] eqn:E; [|discriminate]. apply init_comp_mask in E. cbn [bind] in H0. injection H0 as <-. cbn. tauto.
  - unfold new_custom_barrier, init_barrier in H0. destruct (init_component _ _ _ _ _) as [a|] eqn:E; [|discriminate]. apply init_comp_mask in E. cbn [bind] in H0. injection H0 as <-. cbn. tauto.
  - unfold new_model_equality in H0. destruct (init_component _ _ _ _ _) as [a|] eqn:E; [|discriminate]. apply init_comp_mask in E. cbn [bind] in H0. injection H0 as <-. cbn. tauto.
  - unfold new_custom_constraint in H0. destruct (init_component _ _ _ _ _) as [a|] eqn:E; [|discriminate]. apply init_comp_mask in E. cbn [bind] in H0. injection H0 as <-. cbn. tauto.
Qed.
Lemma settled_model m a : settled m a -> a_model a = Some m.
Proof.
  unfold settled. destruct (a_ext a) as [cost lm [t|o t|o t|j|f]|s [p|j|k|f]|act hard soft [|f]]; unfold jt_bound, jb_bound; intuition.
Qed.
Lemma history_model (Q : mjmodel -> Prop) c os : (forall m, Q m -> wf_joints m) -> constructed c -> Forall (call_with Q) os -> binds_ok os c ->
  forall m, a_model (c_at (history os c)) = Some m -> Q m.
Proof.
  intros HQ Hc Ho Hb. apply (ok_history_with Q (fun a => forall m, a_model a = Some m -> Q m) os c Ho Hb).
  - intros m H. rewrite (constructed_unbound c Hc) in H. discriminate.
  - intros a a' H Hs m Hm. destruct (astep_object _ _ Hs) as [_ B]. rewrite B in Hm. auto.
  - intros c' m Hq Hu _ m' Hm'. pose proof (settled_model _ _ (bind_settles m c' (HQ m Hq) Hu)) as E. rewrite E in Hm'. injection Hm' as <-. exact Hq.
Qed.
Lemma history_bound (Q : mjmodel -> Prop) c os j : (forall m, Q m -> wf_joints m) -> constructed c -> Forall (call_with Q) os -> binds_ok os c -> compiles (history os c) j -> Q (j_model j).
Proof. intros HQ Hc Ho Hb Hj. apply published_reachable in Hj; [|exact Hc]. destruct Hj as (_ & _ & P3 & _). eapply history_model; eauto. Qed.

(** ** Joint components *)
Lemma joint_task_fits fm j L d : joint_task fm j -> wf_data (j_model j) d -> accepted L d j -> fits_n L j d (List.length (selected (j_model j) fm)).
Proof.
  intros Hj Hd Ha. pose proof (joint_task_facts _ _ Hj) as F. pose proof F as (_ & _ & _ & _ & _ & W & lm & t & E & _). unfold accepted in Ha. rewrite E in Ha. destruct Ha as (v & ->).
  destruct (joint_value fm j v F (ex_intro _ W (ex_intro _ lm (ex_intro _ _ E))) L d (proj1 Hd)) as [Lv Ev].
  split. { eexists. split; [exact Ev|]. unfold vsub, vmap2. rewrite map_length, combine_length, sel_pos_length. lia. }
  destruct (joint_jac fm j F L d) as (J & EJ & MJ & _). eauto.
Qed.
Lemma joint_barrier_fits fm j L d : joint_barrier fm j -> wf_data (j_model j) d -> accepted L d j -> fits_n L j d (2 * List.length (selected (j_model j) fm)).
Proof.
  intros Hj Hd Ha. pose proof (joint_barrier_facts _ _ Hj) as F. pose proof F as (_ & _ & _ & _ & _ & s & lo & hi & E). unfold accepted in Ha. rewrite E in Ha. destruct Ha as ((l & -> & Ll) & (h & -> & Lh)).
  assert (Lq : List.length (qidx_of (j_model j) fm) = List.length (selected (j_model j) fm)) by (unfold qidx_of; now rewrite map_length). rewrite Lq in Ll, Lh.
  pose proof (jbar_value fm j l h F (ex_intro _ s (ex_intro _ _ E)) L d (proj1 Hd) Ll Lh) as Ev.
  split. { eexists. split; [exact Ev|]. rewrite app_length. unfold vsub, vmap2. rewrite !map_length, !combine_length, sel_pos_length. lia. }
  destruct (jbar_jac fm j F L d) as (C & EJ & MC & _). exists (C ++ mneg C). split; [exact EJ|]. pose proof (mneg_is_mat' _ _ _ MC) as MN. destruct MC as [C1 C2], MN as [N1 N2]. split; [rewrite app_length; lia|]. apply Forall_app. auto.
Qed.

(** ** Self-collision barriers: any mixture of geom types *)
Lemma self_fits L dm n0 j d : self_barrier dm n0 j -> wf_model (j_model j) -> wf_data (j_model j) d -> accepted L d j -> fits_n L j d (Z.to_nat (j_dim j)).
Proof.
  intros Hj Hm Hd Ha. pose proof (self_barrier_facts _ _ _ Hj) as ((Wb & Wg) & D0 & _ & sdg & ps & E & Fp). unfold accepted in Ha. rewrite E in Ha. destruct Ha as (Hne & HT & l0 & Al & Ln).
  destruct (self_value L dm n0 j d ps Hj (ex_intro _ sdg (ex_intro _ _ (ex_intro _ _ E))) HT) as (l1 & Al1 & V & _).
  rewrite (all_contacts_fun _ _ _ _ _ _ Al Al1) in Ln. destruct (V Ln) as (sm & [Ls _] & Ev).
  split. { eexists. split; [exact Ev|]. now rewrite map_length. }
  destruct (contacts_attached (l_coll L) (j_model j) d ps Wg Fp HT) as (cs & l & rs & Ec & Sb & Rs & P & _).
  inversion Sb; subst l2 cs. set (m := j_model j) in *. set (ds := map (fun x => ct_dist (snd x)) l) in *.
  assert (LD : List.length ds = List.length l1). { unfold ds. rewrite map_length, (Permutation_length P). f_equal. apply (all_contacts_fun L m d ps); [exists rs; auto|exact Al1]. }
  destruct (smallest_spec ds (j_dim j)) as (idx & Es & _ & Fi & S); [lia|]. destruct S as [S _]. rewrite map_length in S.
  set (bd := map (fun p => (ent (m_geom_bodyid m) (fst p), ent (m_geom_bodyid m) (snd p))) ps).
  set (F := fun i => do dist <- jx_idx ds (Z.of_nat i); do p <- jx_idx (map (fun x => ct_pos (snd x)) l) (Z.of_nat i); do fr <- jx_idx (map (fun x => ct_frame (snd x)) l) (Z.of_nat i); do b <- jx_idx bd (Z.of_nat i); jac_self_row m d dist p (mkV (m00 fr) (m01 fr) (m02 fr)) (fst b) (snd b)).
  assert (EJ : jacobian L j d = mapM F idx).
  { unfold jacobian. rewrite E. unfold jac_self. fold m. rewrite Ec. cbn [bind cs_dist]. fold ds. rewrite Es. cbn [bind]. rewrite mapM_pairs by exact Fp. cbn [bind]. destruct ps; [congruence|]. reflexivity. }
  assert (Bd : forall z, is_geom m z -> exists b, (b < m_nbody m)%nat /\ ent (m_geom_bodyid m) z = Z.of_nat b).
  { intros z Hz. destruct Hm as (_ & _ & _ & _ & _ & Gb & _). rewrite Forall_forall in Gb. assert (X : in_range (m_nbody m) (ent (m_geom_bodyid m) z)) by (apply Gb; unfold ent; apply nth_In; unfold is_geom in Hz; lia).
    unfold in_range in X. exists (Z.to_nat (ent (m_geom_bodyid m) z)). lia. }
  assert (R : forall i, In i idx -> exists row, F i = Ok row /\ List.length row = m_nv m).
  { intros i Hi. rewrite Forall_forall in Fi. specialize (Fi i Hi). unfold ds in Fi. rewrite map_length in Fi. assert (l <> []) by (destruct l; [cbn in Fi; lia|discriminate]).
    assert (NE : forall B (f : Z * Z * contact -> B), map f l <> []) by (intros B f; destruct l; [congruence|discriminate]).
    unfold F. destruct (jx_idx_total ds (Z.of_nat i) (NE _ _)) as (x & -> & _). cbn [bind]. destruct (jx_idx_total _ (Z.of_nat i) (NE _ (fun x => ct_pos (snd x)))) as (p & -> & _). cbn [bind].
    destruct (jx_idx_total _ (Z.of_nat i) (NE _ (fun x => ct_frame (snd x)))) as (fr & -> & _). cbn [bind]. assert (NB : bd <> []) by (unfold bd; destruct ps; [congruence|discriminate]).
    destruct (jx_idx_total bd (Z.of_nat i) NB) as (b & -> & Hb). cbn [bind]. unfold bd in Hb. apply in_map_iff in Hb. destruct Hb as (g & <- & Hg). cbn [fst snd]. rewrite Forall_forall in Fp. destruct (Fp g Hg) as [G1 G2].
    destruct (Bd _ G1) as (b1 & B1 & ->). destruct (Bd _ G2) as (b2 & B2 & ->). unfold jac_self_row.
    destruct (point_rows_spec m d Hm Hd (v3_sub p (v3_scale (x / 2) (mkV (m00 fr) (m01 fr) (m02 fr)))) b1 B1) as (r1 & -> & L1 & _). cbn [bind].
    destruct (point_rows_spec m d Hm Hd (v3_add p (v3_scale (x / 2) (mkV (m00 fr) (m01 fr) (m02 fr)))) b2 B2) as (r2 & -> & L2 & _). cbn [bind]. eexists. split; [reflexivity|]. rewrite map_length, combine_length. lia. }
  destruct (mapM_total F idx) as (J & HJ). { intros i Hi. destruct (R i Hi) as (row & Hr & _). eauto. }
  exists J. rewrite EJ. split; [exact HJ|]. pose proof (mapM_length _ _ _ HJ) as LJ. split; [congruence|]. rewrite Forall_forall. intros row Hr. apply In_nth_error in Hr. destruct Hr as (i & Hr).
  assert (Hi : (i < List.length idx)%nat) by (rewrite <- LJ; apply nth_error_Some; congruence). pose proof (mapM_nth _ _ _ 0%nat [] i HJ Hi) as EE. rewrite (nth_error_nth _ _ [] Hr) in EE.
  destruct (R (nth i idx 0%nat) (nth_In _ _ Hi)) as (row' & E2 & L2). congruence.
Qed.

(** ** Equality constraints and custom components *)
Lemma flagged_Forall {A} (P : A -> Prop) (l : list A) fs : Forall P l -> Forall P (flagged l fs).
Proof.
  intros H. unfold flagged. rewrite Forall_map. apply Forall_forall. intros [x b] Hx. apply filter_In in Hx. destruct Hx as [Hx _]. apply in_combine_l in Hx. rewrite Forall_forall in H. cbn. auto.
Qed.
Lemma equality_fits L j d : equality_constraint j -> wf_data (j_model j) d -> accepted L d j -> fits_n L j d (eq_total (j_model j)).
Proof.
  intros Hj Hd Ha. destruct (equality_facts j Hj) as (_ & _ & _ & _ & _ & hard & W & E). unfold accepted in Ha. rewrite E in Ha.
  destruct (equality_rows L j d Hj Hd) as (_ & _ & X & _). destruct (X Ha) as [E1 E2]. split; [eauto|]. exists (flagged (d_efc_J d) (d_efc_is_equality d)). split; [exact E2|].
  destruct Hd as (_ & _ & _ & _ & _ & _ & _ & _ & _ & _ & _ & L1 & L2 & L3). split; [|now apply flagged_Forall]. rewrite <- Ha. symmetry. apply flagged_length. congruence.
Qed.
Definition custom_ext (a : attrs) : Prop :=
  (exists cost lm f, a_ext a = XTask cost lm (TCustom f)) \/ (exists s f, a_ext a = XBarrier s (BCustom f)) \/ (exists x h s f, a_ext a = XConstraint x h s (CCustom f)).
Lemma custom_ext_step a a' : custom_ext a -> astep a a' -> custom_ext a'.
Proof.
  intros He Hs. destruct He as [(cost & lm & f & He)|[(s & f & He)|(x & h & s & f & He)]];
  destruct Hs; try (rewrite He in *; discriminate); cbn; unfold custom_ext; cbn; eauto 8;
  try (match goal with F : forced _ = Ok _ |- _ => destruct (forced_other _ _ F) as (_ & _ & _ & _ & _ & ->); eauto 8 end).
  rewrite He in H. injection H as -> -> <-. eauto 8.
Qed.
Lemma custom_ext_bind c m : custom_ext (c_at c) -> custom_ext (c_at (snd (update_model m c))).
Proof.
  intros He. unfold update_model, mbind, read, custom_ext in *.
  destruct He as [(cost & lm & f & He)|[(s & f & He)|(x & h & s & f & He)]]; rewrite He; cbn; rewrite He; eauto 8.
Qed.
Definition custom_jax (j : jaxc) (f : mjdata -> list R) : Prop :=
  (exists W lm, j_ext j = JTask W lm (JTCustom f)) \/ (exists s, j_ext j = JBarrier s (JBCustom f)) \/ (exists x h W, j_ext j = JConstraint x h W (JCCustom f)).
Lemma custom_history (Q : mjmodel -> Prop) c os j : constructed c -> custom_ext (c_at c) -> Forall (call_with Q) os -> binds_ok os c -> compiles (history os c) j -> exists f, custom_jax j f.
Proof.
  intros Hc Hx Ho Hb Hj. apply published_reachable in Hj; [|exact Hc]. destruct Hj as (_ & _ & _ & _ & _ & _ & P7).
  assert (X : custom_ext (c_at (history os c))). { apply (ok_history_with Q custom_ext os c Ho Hb Hx); [exact custom_ext_step|]. intros c' m _ _ Hc'. now apply custom_ext_bind. }
  destruct X as [(cost & lm & f & E)|[(s & f & E)|(x & h & s & f & E)]]; inversion P7; try congruence; unfold custom_jax; eauto 8.
Qed.
Lemma custom_fits L j d f : custom_jax j f -> sound_lib L (j_model j) -> wf_joints (j_model j) -> wf_data (j_model j) d -> accepted L d j -> exists n, j_dim j = Z.of_nat n /\ fits_n L j d n.
Proof.
  intros Hf HL Hw Hd Ha. assert (K : keeps_dim j f). { unfold accepted in Ha. destruct Hf as [(W & lm & E)|[(s & E)|(x & h & W & E)]]; rewrite E in Ha; exact Ha. }
  assert (C : forall d', call L j d' = Ok (f d')). { intros d'. unfold call. destruct Hf as [(W & lm & E)|[(s & E)|(x & h & W & E)]]; rewrite E; reflexivity. }
  assert (JA : jacobian L j d = jac_auto L j d). { unfold jacobian. destruct Hf as [(W & lm & E)|[(s & E)|(x & h & W & E)]]; rewrite E; reflexivity. }
  exists (List.length (f d)). split; [now apply K|]. split; [eauto|]. rewrite JA. apply auto_jac; auto. intros d' Hd'. exists (f d'). split; [apply C|]. apply Nat2Z.inj. rewrite <- (K d Hd), <- (K d' Hd'). reflexivity.
Qed.

(** ** All components *)
Lemma calls_weaken (P Q : mjmodel -> Prop) os : (forall m, P m -> Q m) -> Forall (call_with P) os -> Forall (call_with Q) os.
Proof. intros H. apply Forall_impl. intros o. destruct o; cbn; auto. Qed.
Lemma calls_sound os : Forall (call_with sound_model) os -> Forall sound_op os.
Proof. apply Forall_impl. intros o. destruct o; cbn; auto. apply sound_wf. Qed.
Lemma component_fits L d j : api_component j -> sound_lib L (j_model j) -> wf_data (j_model j) d -> accepted L d j -> shapes_fit L d j.
Proof.
  intros (c & os & Hc & Hw & Ho & Ho2 & Hb & Hj) HL Hd Ha.
  destruct (gain_weight c os j Hc Hw Ho2 Hj) as [G1 G2].
  assert (Sm : sound_model (j_model j)) by (apply (history_bound sound_model c os j sound_wf Hc Ho Hb Hj)).
  assert (X : exists n, j_dim j = Z.of_nat n /\ fits_n L j d n).
  { assert (CF : compiled_from c j) by (exists os; auto).
    assert (CU : custom_ext (c_at c) -> exists n, j_dim j = Z.of_nat n /\ fits_n L j d n).
    { intros Cx. destruct (custom_history _ _ _ _ Hc Cx Ho Hb Hj) as (f & Hf). eapply custom_fits; eauto. now apply sound_wf. }
    inversion Hc; subst.
    - assert (K : com_task mk j) by (exists name, cost, gain, gf, lm, c; auto). eexists. split; [|eapply com_fits; eauto]. now destruct (com_task_facts _ _ K) as (_ & D & _).
    - assert (K : position_task mk on ty j) by (exists name, cost, gain, gf, lm, c; auto). eexists. split; [|eapply position_fits; eauto]. now destruct (position_task_facts _ _ _ _ K) as (_ & D & _).
    - assert (K : frame_task mk on ty j) by (exists name, cost, gain, gf, lm, c; auto). eexists. split; [|eapply frame_fits; eauto]. now destruct (frame_task_facts _ _ _ _ K) as (_ & D & _).
    - assert (K : joint_task mk j) by (exists name, cost, gain, gf, lm, c, os; auto using calls_sound). eexists. split; [|eapply joint_task_fits; eauto]. now destruct (joint_task_facts _ _ K) as (_ & _ & D & _).
    - apply CU. left. unfold new_custom_task in *. destruct (init_task _ _ _ _ _ _ _) as [a|] eqn:E; [|discriminate]. apply init_task_mask in E. cbn [bind] in H. injection H as <-. cbn. destruct E as (_ & _ & -> & _). eauto.
    - assert (K : position_barrier mk on ty lt j) by (exists name, gain, lo, hi, gf, sdg, c; auto). eexists. split; [|eapply pbar_fits; eauto]. now destruct (position_barrier_facts _ _ _ _ _ K) as (_ & _ & _ & D & _).
    - assert (K : joint_barrier mk j) by (exists name, gain, gf, sdg, lo, hi, c, os; auto using calls_sound). eexists. split; [|eapply joint_barrier_fits; eauto]. destruct (joint_barrier_facts _ _ K) as (_ & _ & D & _). lia.
    - assert (K : self_barrier dm n j). { exists name, gain, gf, sdg, bs, ex, c, os. split; [assumption|]. split; [|auto]. apply (calls_weaken sound_model); [|exact Ho]. intros m0 (_ & A & B & _). split; assumption. }
      exists (Z.to_nat (j_dim j)). split; [destruct (self_barrier_facts _ _ _ K) as (_ & D & _); lia|]. eapply self_fits; eauto. exact (proj1 Sm).
    - apply CU. right. left. unfold new_custom_barrier, init_barrier in *. destruct (init_component _ _ _ _ _) as [a|] eqn:E; [|discriminate]. apply init_comp_mask in E. cbn [bind] in H. injection H as <-. cbn. destruct E as (-> & _). eauto.
    - assert (K : equality_constraint j) by (exists name, gain, hard, soft, c; auto). eexists. split; [|eapply equality_fits; eauto]. now destruct (equality_facts _ K) as (_ & _ & D & _).
    - apply CU. right. right. unfold new_custom_constraint in *. destruct (init_component _ _ _ _ _) as [a|] eqn:E; [|discriminate]. apply init_comp_mask in E. cbn [bind] in H. injection H as <-. cbn. destruct E as (-> & _). eauto 7. }
  destruct X as (n & D & (e & Ee & Le) & J & EJ & MJ). rewrite D in G1. apply Nat2Z.inj in G1. exists n, e, J. subst n. repeat split; auto; try apply MJ.
Qed.
