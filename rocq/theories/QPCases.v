(** Concrete problems for the local IK theorems. *)
From Verif Require Import Base Lin LinFacts Mjx Typing Component Problem SpecComponent SpecProblem Witness CompThms2 JaxComponents LocalIK SpecQP QPFacts QPThms QPThms2 QPThms3 QPThms4.
Open Scope R_scope.

(** Simulation data with positions and equality rows only. *)
Definition dat (q efc : list R) (flags : list bool) (EJ : mat) : mjdata :=
  {| d_qpos := q; d_xpos := []; d_xmat := []; d_xquat := []; d_xipos := []; d_geom_xpos := []; d_geom_xmat := [];
     d_site_xpos := []; d_site_xmat := []; d_subtree_com := []; d_cdof := []; d_efc_pos := efc; d_efc_is_equality := flags; d_efc_J := EJ |}.

Definition arm2e : mjmodel := with_eq arm2 [EqJoint].
(** A damped posture task, joint limits, a hard and a soft model equality. *)
Definition hold_task : comp := mkC (mkA "hold" None (tscalar 3) (fun x => x) (-1) None []
  (XTask (tscalar 2) (1 / 2) (TJoint (mkJT None None None)))) true None.
Definition limits_bar : comp := mkC (mkA "limits" None (tscalar 1) (fun x => x) (-1) None []
  (XBarrier (1 / 3) (BJoint (mkJB None None None None)))) true None.
Definition hard_eq : comp := mkC (mkA "loop" None (tscalar 5) (fun x => x) (-1) None [] (XConstraint true true None CModelEq)) true None.
Definition soft_eq : comp := mkC (mkA "soft" None (tscalar 1) (fun x => x) (-1) None [] (XConstraint true false None CModelEq)) true None.
Lemma hold_made : constructed hold_task.
Proof.
  eapply made_joint_task with (name := "hold"%string) (cost := tscalar 2) (gain := tscalar 3) (gf := None) (lm := 1 / 2) (mk := None).
  unfold new_joint_task, init_task. cbn. destruct (Rlt_dec (1 / 2) 0); [lra|reflexivity].
Qed.
Lemma limits_made : constructed limits_bar.
Proof. eapply made_joint_barrier with (name := "limits"%string) (gain := tscalar 1) (gf := None) (sdg := 1 / 3) (lo := None) (hi := None) (mk := None). reflexivity. Qed.
Lemma hard_made : constructed hard_eq.
Proof. eapply made_model_equality with (name := "loop"%string) (gain := tscalar 5) (hard := true) (soft := None). reflexivity. Qed.
Lemma soft_made : constructed soft_eq.
Proof. eapply made_model_equality with (name := "soft"%string) (gain := tscalar 1) (hard := false) (soft := None). reflexivity. Qed.

Definition qp_prog : list wop :=
  [WNewProblem arm2e (tscalar (-1)) (tvec [2; 3]); WNewComp hold_task; WNewComp limits_bar; WNewComp hard_eq; WNewComp soft_eq;
   WAdd 0 0; WAdd 0 1; WAdd 0 2; WAdd 0 3].
Definition result (r : res out) : jdata := match r with Ok (OData d) => d | _ => mkJD arm2 [] [] [] end.
Definition qp_demo : jdata := Eval vm_compute in result (fst (step (WCompile 0) (run qp_prog empty_world))).
Lemma qp_demo_compiled : compiled_by qp_prog 0 qp_demo /\ Forall legal qp_prog /\ Forall wf_wop qp_prog.
Proof.
  split; [vm_compute; reflexivity|]. split; [|repeat constructor].
  repeat constructor; [exact hold_made|exact limits_made|exact hard_made|exact soft_made].
Qed.
Definition qp_data : mjdata := dat [1 / 2; 1 / 4] [1 / 10; 7] [true; false] [[1; -1]; [1; 1]].
Lemma qp_demo_nv : m_nv arm2e = m_nv (jd_model qp_demo). Proof. reflexivity. Qed.
Lemma qp_demo_fits L : Forall (fits L (m_nv (jd_model qp_demo)) qp_data) (comps_of qp_demo).
Proof.
  assert (M : forall r c A, is_matb r c A = true -> is_mat r c A) by (intros; now apply is_matb_spec).
  repeat (apply Forall_cons || apply Forall_nil); (eexists; eexists; split; [vm_compute; reflexivity|]; split; [vm_compute; reflexivity|];
    split; [apply M; vm_compute; reflexivity|]; split; [reflexivity|]); first [apply M; vm_compute; reflexivity|reflexivity|exact I].
Qed.
Lemma qp_demo_barrier L : forall j J, In j (comps_of qp_demo) -> is_barrier j = true -> jacobian L j qp_data = Ok J -> frob2 J <> 0.
Proof.
  intros j J Hj Hb HJ. destruct Hj as [<-|[<-|[<-|[<-|[]]]]]; try discriminate.
  assert (E : Ok J = Ok ([[1; 0]; [0; 1]] ++ mneg [[1; 0]; [0; 1]])) by (rewrite <- HJ; vm_compute; reflexivity). injection E as ->.
  unfold frob2, dot, vmul, vmap2, mneg, vneg. cbn. lra.
Qed.
Lemma qp_demo_assembles L : exists Q, assemble L arm2e qp_demo qp_data = Ok Q.
Proof. apply assemble_finite; [exact qp_demo_nv|apply qp_demo_fits|apply qp_demo_barrier]. Qed.
Lemma qp_demo_shaped L : Forall (well_shaped L (m_nv (jd_model qp_demo)) qp_data) (comps_of qp_demo).
Proof. eapply Forall_impl; [|apply qp_demo_fits]. intros j. apply fits_shaped. Qed.
Lemma qp_demo_nonneg : Forall nonneg_weights (comps_of qp_demo).
Proof. repeat constructor; unfold nonneg_weights; cbn; lra. Qed.
Lemma qp_demo_kinds : map is_barrier (comps_of qp_demo) = [false; true; false; false] /\ map is_hard (comps_of qp_demo) = [false; false; true; false].
Proof. split; reflexivity. Qed.
Lemma qp_demo_limits : List.length (jd_vmin qp_demo) = m_nv (jd_model qp_demo) /\ List.length (jd_vmax qp_demo) = m_nv (jd_model qp_demo).
Proof. split; reflexivity. Qed.

(** ** Velocity limits *)
Definition lim_prog : list wop := [WNewProblem arm2 (tscalar (-1)) (tvec [2; 3])].
Definition lim_pd : jdata := mkJD arm2 [-1; -1] [2; 3] [].
Lemma lim_compiled : compiled_by lim_prog 0 lim_pd. Proof. vm_compute; reflexivity. Qed.
Lemma limits_violated : exists os pi pd, compiled_by os pi pd /\ Forall legal os /\ Forall wf_wop os /\
  forall L d, exists Q v w, assemble L (jd_model pd) pd d = Ok Q /\ 
    List.length v = m_nv (jd_model pd) /\ satisfies_ineq (qp_G Q) (qp_h Q) v /\ ~ vle (jd_vmin pd) v /\
    List.length w = m_nv (jd_model pd) /\ vle (jd_vmin pd) w /\ vle w (jd_vmax pd) /\ ~ satisfies_ineq (qp_G Q) (qp_h Q) w.
Proof.
  exists lim_prog, 0%nat, lim_pd. split; [exact lim_compiled|]. split; [repeat constructor|]. split; [repeat constructor|]. intros L d.
  assert (HQ : exists Q, assemble L arm2 lim_pd d = Ok Q) by (apply assemble_finite; [reflexivity|constructor|intros ? ? []]).
  destruct HQ as [Q HQ]. exists Q, [-2; -2], [2; 3]. split; [exact HQ|].
  assert (I : forall v, List.length v = 2%nat -> satisfies_ineq (qp_G Q) (qp_h Q) v <-> vle v [- -1; - -1] /\ vle (vneg v) [2; 3] /\ Forall (cbf L d v) []).
  { intros v Hv. apply (ineq_iff L arm2 lim_pd d Q eq_refl HQ); [constructor|exact Hv|reflexivity|reflexivity]. }
  split; [reflexivity|]. split; [apply I; [reflexivity|]; repeat split; repeat constructor; lra|].
  split; [intros H; inversion H; lra|]. split; [reflexivity|]. split; [repeat constructor; lra|]. split; [repeat constructor; lra|].
  intros H. apply I in H; [|reflexivity]. destruct H as [H _]. inversion H; lra.
Qed.

(** ** Inactive constraints *)
Definition inactive : attrs -> attrs := fun a =>
  match a_ext a with XConstraint _ h s k => set_a_ext a (XConstraint false h s k) | _ => a end.
Definition act_prog : list wop := [WNewProblem arm2e (tscalar (-1)) (tscalar 1); WNewComp hard_eq; WAdd 0 0; WCop 0 (OpAssign inactive)].
Definition act_pd : jdata := Eval vm_compute in result (fst (step (WCompile 0) (run act_prog empty_world))).
Lemma inactive_matters : exists os pi pd, compiled_by os pi pd /\ Forall legal os /\
  (exists j W k, comps_of pd = [j] /\ j_ext j = JConstraint false true W k) /\
  forall L, exists Q Q' d v, assemble L (jd_model pd) pd d = Ok Q /\ assemble L (jd_model pd) (mkJD (jd_model pd) (jd_vmin pd) (jd_vmax pd) []) d = Ok Q' /\
    List.length v = m_nv (jd_model pd) /\ satisfies_eq (qp_eq Q') v /\ ~ satisfies_eq (qp_eq Q) v.
Proof.
  exists act_prog, 0%nat, act_pd. split; [vm_compute; reflexivity|]. split; [repeat constructor; exact hard_made|].
  split; [do 3 eexists; split; reflexivity|]. intros L.
  assert (F : Forall (fits L (m_nv (jd_model act_pd)) qp_data) (comps_of act_pd)).
  { assert (M : forall r c A, is_matb r c A = true -> is_mat r c A) by (intros; now apply is_matb_spec).
    repeat (apply Forall_cons || apply Forall_nil); (eexists; eexists; split; [vm_compute; reflexivity|]; split; [vm_compute; reflexivity|];
    split; [apply M; vm_compute; reflexivity|]; split; [reflexivity|exact I]). }
  assert (HQ : exists Q, assemble L arm2e act_pd qp_data = Ok Q).
  { apply assemble_finite; [reflexivity|exact F|]. intros j J Hj Hb. destruct Hj as [<-|[]]. discriminate. }
  assert (HQ' : exists Q, assemble L arm2e (mkJD arm2e [-1; -1] [1; 1] []) qp_data = Ok Q).
  { apply assemble_finite; [reflexivity|constructor|]. intros j J []. }
  destruct HQ as [Q HQ], HQ' as [Q' HQ']. exists Q, Q', qp_data, [0; 0]. split; [exact HQ|]. split; [exact HQ'|]. split; [reflexivity|]. split.
  - apply (eq_iff L arm2e (mkJD arm2e [-1; -1] [1; 1] []) qp_data Q' eq_refl HQ'); constructor.
  - intros H. apply (eq_iff L arm2e act_pd qp_data Q eq_refl HQ) in H.
    + cbn in H. inversion H as [|? ? H1 _]; subst. specialize (H1 [[1; -1]] [1 / 10]). unfold gained in H1. cbn in H1.
      assert (H2 := H1 eq_refl eq_refl). injection H2. unfold dot, vmul, vmap2. cbn. lra.
    + eapply Forall_impl; [|exact F]. intros j. apply fits_shaped.
Qed.

(** ** A barrier with a zero Jacobian: joint limits on no joint. *)
Definition empty_bar : comp := mkC (mkA "limits" None (tscalar 1) (fun x => x) (-1) None []
  (XBarrier 0 (BJoint (mkJB (Some [0; 0]%Z) (Some (tvec [])) (Some (tvec [])) None)))) true None.
Lemma empty_made : constructed empty_bar.
Proof. eapply made_joint_barrier with (name := "limits"%string) (gain := tscalar 1) (gf := None) (sdg := 0) (lo := Some (tvec [])) (hi := Some (tvec [])) (mk := Some [0; 0]%Z). reflexivity. Qed.
Definition nan_prog : list wop := [WNewProblem arm2 (tscalar (-1)) (tscalar 1); WNewComp empty_bar; WAdd 0 0].
Definition nan_pd : jdata := Eval vm_compute in result (fst (step (WCompile 0) (run nan_prog empty_world))).
Lemma not_finite : exists os pi pd, compiled_by os pi pd /\ Forall legal os /\ Forall wf_wop os /\
  forall L d, Forall (fits L (m_nv (jd_model pd)) d) (comps_of pd) /\ assemble L (jd_model pd) pd d = Err NonFinite.
Proof.
  exists nan_prog, 0%nat, nan_pd. split; [vm_compute; reflexivity|]. split; [repeat constructor; exact empty_made|]. split; [repeat constructor|].
  intros L d. split.
  - constructor; [|constructor]. exists [], []. split; [vm_compute; reflexivity|]. split; [vm_compute; reflexivity|]. repeat split; constructor.
  - unfold assemble. cbn. unfold add_component_qp. cbn. unfold process_barrier. cbn. destruct (Req_EM_T 0 0) as [_|N]; [reflexivity|now elim N].
Qed.

(** ** An optimal step: one hinge, one posture task, inside the limits. *)
Definition one : mjmodel := chain [JHinge].
Definition hold1 : comp := mkC (mkA "hold" None (tscalar 1) (fun x => x) (-1) None []
  (XTask (tscalar 1) 0 (TJoint (mkJT None None None)))) true None.
Lemma hold1_made : constructed hold1.
Proof.
  eapply made_joint_task with (name := "hold"%string) (cost := tscalar 1) (gain := tscalar 1) (gf := None) (lm := 0) (mk := None).
  unfold new_joint_task, init_task. cbn. rewrite not_neg0. reflexivity.
Qed.
Definition one_prog : list wop := [WNewProblem one (tscalar (-1)) (tscalar 1); WNewComp hold1; WAdd 0 0].
Definition one_pd : jdata := Eval vm_compute in result (fst (step (WCompile 0) (run one_prog empty_world))).
Lemma one_case L : compiled_by one_prog 0 one_pd /\ Forall legal one_prog /\ Forall nonneg_weights (comps_of one_pd) /\
  Forall (well_shaped L (m_nv (jd_model one_pd)) (dat [1 / 2] [] [] [])) (comps_of one_pd) /\
  exists Q, assemble L one one_pd (dat [1 / 2] [] [] []) = Ok Q /\ kkt 1 Q [- (1 / 2)] [] [0; 0].
Proof.
  split; [vm_compute; reflexivity|]. split; [repeat constructor; exact hold1_made|].
  split. { constructor; [|constructor]. exact (Rle_refl 0). }
  split.
  { constructor; [|constructor]. apply fits_shaped. do 2 eexists. split; [vm_compute; reflexivity|]. split; [vm_compute; reflexivity|].
    assert (M : forall r c A, is_matb r c A = true -> is_mat r c A) by (intros; now apply is_matb_spec).
    split; [apply M; vm_compute; reflexivity|]. split; [reflexivity|]. apply M; vm_compute; reflexivity. }
  eexists. split; [cbn; reflexivity|].
  unfold kkt, feasible, satisfies_ineq, satisfies_eq, eq_matrix. cbn. unfold dot, vmul, vadd, vsub, vmap2, vscale, vneg, vzero, vle. cbn.
  repeat split; repeat (apply Forall2_cons || apply Forall2_nil || apply Forall_cons || apply Forall_nil); try lra; repeat f_equal; try lra.
Qed.

Lemma symmetric_case : forall L, exists os pi pd Q, compiled_by os pi pd /\ Forall legal os /\ m_nv (jd_model pd) = 1%nat /\
  assemble L (jd_model pd) pd (dat [1 / 2] [] [] []) = Ok Q /\ jd_vmax pd = vneg (jd_vmin pd) /\ jd_vmin pd = [-1] /\
  Forall (well_shaped L (m_nv (jd_model pd)) (dat [1 / 2] [] [] [])) (comps_of pd).
Proof.
  intros L. destruct (one_case L) as (A & B & _ & C & Q & HQ & _). exists one_prog, 0%nat, one_pd, Q. split; [exact A|]. split; [exact B|].
  split; [reflexivity|]. split; [exact HQ|]. split; [|split; [reflexivity|exact C]]. cbn. f_equal. lra.
Qed.
Lemma rest_case : forall L,
  Forall (well_shaped L (m_nv (jd_model one_pd)) (dat [0] [] [] [])) (comps_of one_pd) /\ Forall (at_rest L (dat [0] [] [] [])) (comps_of one_pd) /\
  exists Q, assemble L one one_pd (dat [0] [] [] []) = Ok Q /\ feasible Q (vzero 1) /\ optimal 1 Q [0].
Proof.
  intros L. split.
  { constructor; [|constructor]. apply fits_shaped. do 2 eexists. split; [vm_compute; reflexivity|]. split; [vm_compute; reflexivity|].
    assert (M : forall r c A, is_matb r c A = true -> is_mat r c A) by (intros; now apply is_matb_spec).
    split; [apply M; vm_compute; reflexivity|]. split; [reflexivity|]. apply M; vm_compute; reflexivity. }
  split. { constructor; [|constructor]. right; right. intros e He. cbn in He. injection He as <-. unfold gained, vmul, vmap2. cbn. f_equal. lra. }
  eexists. split; [cbn; reflexivity|]. split.
  - unfold feasible, satisfies_ineq, satisfies_eq, eq_matrix. cbn. unfold dot, vmul, vadd, vsub, vmap2, vscale, vneg, vzero, vle. cbn.
    repeat split; repeat (apply Forall2_cons || apply Forall2_nil || apply Forall_cons || apply Forall_nil); lra.
  - eapply (kkt_minimises L one one_pd (dat [0] [] [] []) _ eq_refl eq_refl [0] [] [0; 0]); [constructor; [|constructor]; exact (Rle_refl 0)|].
    unfold kkt, feasible, satisfies_ineq, satisfies_eq, eq_matrix. cbn. unfold dot, vmul, vadd, vsub, vmap2, vscale, vneg, vzero, vle. cbn.
    repeat split; repeat (apply Forall2_cons || apply Forall2_nil || apply Forall_cons || apply Forall_nil); try lra; repeat f_equal; try lra.
Qed.

(** ** Decay of a hard equality on one hinge, gain 1/2, step 1. *)
Definition onee : mjmodel := with_eq one [EqJoint].
Definition half_eq : comp := mkC (mkA "loop" None (tscalar (1 / 2)) (fun x => x) (-1) None [] (XConstraint true true None CModelEq)) true None.
Lemma half_made : constructed half_eq.
Proof. eapply made_model_equality with (name := "loop"%string) (gain := tscalar (1 / 2)) (hard := true) (soft := None). reflexivity. Qed.
Definition dec_prog : list wop := [WNewProblem onee (tscalar (-100)) (tscalar 100); WNewComp half_eq; WAdd 0 0].
Definition dec_pd : jdata := Eval vm_compute in result (fst (step (WCompile 0) (run dec_prog empty_world))).
Definition dec_e (k : nat) : R := (1 / 2) ^ k * 8.
Definition dec_d (k : nat) : mjdata := dat [0] [dec_e k] [true] [[1]].
Lemma decay_case L : compiled_by dec_prog 0 dec_pd /\ Forall legal dec_prog /\
  exists j, comps_of dec_pd = [j] /\ is_hard j = true /\ (forall x, j_gain_fn j x = x) /\ j_gain j = [1 / 2] /\
  forall k, exists Q, assemble L onee dec_pd (dec_d k) = Ok Q /\ Forall (well_shaped L (m_nv (jd_model dec_pd)) (dec_d k)) (comps_of dec_pd) /\
     satisfies_eq (qp_eq Q) [- (1 / 2 * dec_e k)] /\ call L j (dec_d k) = Ok [dec_e k] /\
     exists J, jacobian L j (dec_d k) = Ok J /\ [dec_e (S k)] = vadd [dec_e k] (vscale 1 (mv J [- (1 / 2 * dec_e k)])).
Proof.
  split; [vm_compute; reflexivity|]. split; [repeat constructor; exact half_made|].
  eexists. split; [reflexivity|]. split; [reflexivity|]. split; [reflexivity|]. split; [reflexivity|]. intros k.
  assert (F : Forall (fits L 1 (dec_d k)) (comps_of dec_pd)).
  { assert (M : forall r c A, is_matb r c A = true -> is_mat r c A) by (intros; now apply is_matb_spec).
    constructor; [|constructor]. exists [[1]], [dec_e k]. split; [reflexivity|]. split; [reflexivity|]. split; [apply M; reflexivity|]. split; reflexivity. }
  assert (S : Forall (well_shaped L (m_nv (jd_model dec_pd)) (dec_d k)) (comps_of dec_pd)) by (eapply Forall_impl; [|exact F]; intros j; apply fits_shaped).
  assert (HQ : exists Q, assemble L onee dec_pd (dec_d k) = Ok Q).
  { apply assemble_finite; [reflexivity|exact F|]. intros j J Hj Hb. destruct Hj as [<-|[]]. discriminate. }
  destruct HQ as [Q HQ]. exists Q. split; [exact HQ|]. split; [exact S|]. split; [|split; [reflexivity|]].
  - apply (eq_iff L onee dec_pd (dec_d k) Q eq_refl HQ S). cbn. constructor; [|constructor]. intros J e HJ He. cbn in HJ, He.
    injection HJ as <-. injection He as <-. unfold gained, mv, dot, vmul, vmap2, vneg. cbn. f_equal. lra.
  - exists [[1]]. split; [reflexivity|]. unfold vadd, vscale, mv, dot, vmul, vmap2. cbn. f_equal. unfold dec_e. cbn [pow]. lra.
Qed.
