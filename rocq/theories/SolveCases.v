(** A concrete program for the theorems on existence and uniqueness of the solution. *)
From Verif Require Import Base Lin LinFacts Mjx Typing Component Problem SpecComponent SpecJoint SpecHistory Rot Conf FrameJac Collide JaxComponents LocalIK Witness.
From Verif Require Import SpecCollision SpecTree SpecShape SpecContact SpecSelf SpecValue SpecQP SpecProblem SpecFit ConfCases CompThms2 SpecMotion QPFacts QPThms QPCases MotionCases BindCases ValueCases FitFacts3 FitCases.
From Verif Require Import SpecSolve SolveFacts SolveThms ScaleFacts ScaleThms.
Open Scope R_scope.

(** A straight chain whose simulator reports one equality row, met exactly, and one other row. *)
Definition loop_data (m : mjmodel) : mjdata :=
  let d := straight m [] in
  {| d_qpos := d_qpos d; d_xpos := d_xpos d; d_xmat := d_xmat d; d_xquat := d_xquat d; d_xipos := d_xipos d;
     d_geom_xpos := d_geom_xpos d; d_geom_xmat := d_geom_xmat d; d_site_xpos := d_site_xpos d; d_site_xmat := d_site_xmat d;
     d_subtree_com := d_subtree_com d; d_cdof := d_cdof d; d_efc_pos := [0; 7]; d_efc_is_equality := [true; false];
     d_efc_J := [[1; -1]; [1; 1]] |}.
Definition loop_lib : lib := mkL (1 / 1000) loop_data (fun _ d => d) (fun _ d => d) (fun _ d => d) ones_jac (fun _ => None).
Lemma loop_wf q : List.length q = 2%nat -> wf_data arm2e (update loop_lib arm2e q).
Proof. intros H. unfold wf_data, update, kin, loop_lib, set_qpos. cbn. repeat split; try exact H; repeat constructor. Qed.
Lemma loop_sound : sound_lib loop_lib arm2e.
Proof.
  split; [exact loop_wf|]. intros f x k H. destruct (H x eq_refl) as (y & E & <-). cbn. unfold ones_jac. rewrite E. eexists. split; [reflexivity|]. now apply repeat_mat, repeat_length.
Qed.
Lemma arm2e_sound : sound_model arm2e.
Proof.
  destruct (chain_sound [JHinge; JHinge]) as (A & B & C & D & E & _ & F). split; [exact A|]. split; [exact B|]. split; [exact C|]. split; [exact D|]. split; [exact E|]. split; [reflexivity|exact F].
Qed.
Lemma qp_tidy : tidy arm2e qp_prog.
Proof.
  split; [exact arm2e_sound|]. split; [apply qp_demo_compiled|]. split; [repeat (constructor; [first [exact I|reflexivity]|]); constructor|].
  split; [apply qp_demo_compiled|]. split; [repeat (constructor; [first [exact I|reflexivity|split; [reflexivity|first [exact I|reflexivity]]]|]); constructor|].
  intros k o Hk Hb. do 9 (destruct k as [|k]; [injection Hk as <-; first [contradiction | left; eexists; vm_compute; reflexivity]|]). destruct k; discriminate.
Qed.
Definition loop_q : tensor := tvec [1 / 2; 1 / 4].
Definition loop_at : mjdata := update loop_lib arm2e (t_data loop_q).
Lemma loop_accepted : Forall (accepted loop_lib loop_at) (comps_of qp_demo).
Proof.
  unfold comps_of, qp_demo; cbn [jd_comps map snd]. repeat (apply Forall_cons; [unfold accepted; cbn [j_ext]|]); [| | | |constructor].
  - exists [R0; R0]. reflexivity.
  - split; match goal with |- vec_of_length _ (mkT _ ?l) => exists l; split; reflexivity end.
  - reflexivity.
  - reflexivity.
Qed.
Lemma loop_barrier : forall j J, In j (comps_of qp_demo) -> is_barrier j = true -> jacobian loop_lib j loop_at = Ok J -> frob2 J <> 0.
Proof.
  intros j J Hj Hb HJ. destruct Hj as [<-|[<-|[<-|[<-|[]]]]]; try discriminate.
  assert (E : Ok J = Ok ([[1; 0]; [0; 1]] ++ mneg [[1; 0]; [0; 1]])) by (rewrite <- HJ; vm_compute; reflexivity). injection E as ->.
  unfold frob2, dot, vmul, vmap2, mneg, vneg. cbn. lra.
Qed.
Lemma loop_rest : may_rest loop_lib loop_at qp_demo.
Proof.
  split; [repeat constructor; lra|]. split; [repeat constructor; lra|]. unfold comps_of, qp_demo; cbn [jd_comps map snd]. repeat (apply Forall_cons; [|]); [| | | |constructor]; (split; intros K; try discriminate K).
  - split; [repeat constructor; cbn; lra|]. split; [intros; cbn; assumption|]. intros e He. cbn in He. injection He as <-. repeat constructor; lra.
  - split; [reflexivity|]. intros e He. vm_compute in He. injection He as <-. reflexivity.
Qed.
Lemma loop_pins : Exists (pins loop_lib (m_nv arm2e) loop_at) (comps_of qp_demo).
Proof. apply Exists_cons_tl, Exists_cons_hd. eapply pin_barrier; [reflexivity|]. lra. Qed.
Lemma loop_pins_task : pins loop_lib (m_nv arm2e) loop_at (nth 0 (comps_of qp_demo) (snd (nth 0 (jd_comps qp_demo) (""%string, mkJ 0 arm2 [] (fun x => x) [] (JBarrier 0 (JBCustom (fun _ => []))))))).
Proof.
  eapply pin_task; [reflexivity|vm_compute; reflexivity|]. intros [|x [|y [|]]]; try discriminate. intros _ H. cbn in H.
  assert (x = 0 /\ y = 0) as [-> ->]; [|reflexivity]. split.
  - specialize (H _ (or_introl eq_refl)). revert H. unfold vmul, vmap2. cbn. lra.
  - specialize (H _ (or_intror (or_introl eq_refl))). revert H. unfold vmul, vmap2. cbn. lra.
Qed.
(** A solver for this problem: any function that returns the minimiser. *)
Lemma loop_solver : exists So, forall Q, assemble loop_lib arm2e qp_demo loop_at = Ok Q -> minimises So Q.
Proof.
  assert (N : m_nv arm2e = m_nv (jd_model qp_demo)) by reflexivity.
  assert (D : wf_data arm2e loop_at) by (apply loop_wf; reflexivity).
  destruct (program_assembles loop_lib arm2e qp_prog 0 qp_demo loop_at qp_tidy (proj1 qp_demo_compiled) loop_sound D loop_accepted loop_barrier) as (Q & HQ).
  destruct (program_shaped loop_lib arm2e qp_prog 0 qp_demo qp_tidy (proj1 qp_demo_compiled) loop_sound loop_at D loop_accepted) as (_ & F & A & B).
  destruct (best_exists loop_lib arm2e qp_demo loop_at Q N HQ F A B) as (v & Hv); [exists (vzero 2); exact (rest_admissible loop_lib qp_demo loop_at F loop_rest)|].
  apply (optimal_best loop_lib arm2e qp_demo loop_at Q N HQ F A B) in Hv.
  exists (fun _ => mkSol v [] []). intros Q' HQ'. rewrite HQ in HQ'. injection HQ' as <-. intros n -> _. cbn [sol_primal]. rewrite (proj2 (hessian_shape loop_lib arm2e qp_demo loop_at Q N HQ)). exact Hv.
Qed.
(** Scaling: a posture task and a hard constraint. *)
Definition plain_prog : list wop := [WNewProblem arm2e (tscalar (-1)) (tvec [2; 3]); WNewComp hold_task; WNewComp hard_eq; WAdd 0 0; WAdd 0 1].
Definition plain_pd : jdata := Eval vm_compute in result (fst (step (WCompile 0) (run plain_prog empty_world))).
Lemma plain_compiled : compiled_by plain_prog 0 plain_pd. Proof. vm_compute; reflexivity. Qed.
Lemma plain_legal : Forall legal plain_prog. Proof. repeat constructor; [exact hold_made|exact hard_made]. Qed.
Lemma plain_only : Forall only_task_costs (comps_of plain_pd). Proof. repeat constructor. Qed.
Lemma plain_tasks : lists_tasks (state plain_prog) 0 [0%nat].
Proof.
  split; [repeat constructor; intros []|]. intros ci. split.
  - intros [<-|[]]. eexists. exists "hold"%string. do 4 eexists. split; [vm_compute; reflexivity|]. split; [now left|]. split; vm_compute; reflexivity.
  - intros (p & n & c & t & lm & k & Pp & Hi & Hc & Hx). vm_compute in Pp. injection Pp as <-. cbn in Hi. destruct Hi as [Hi|[Hi|[]]]; injection Hi as <- <-; [now left|].
    vm_compute in Hc. injection Hc as <-. discriminate.
Qed.
Lemma qp_registered : registered qp_prog 0 "hold" 0.
Proof.
  eexists. split; [vm_compute; reflexivity|]. split; [now left|]. intros n' Hi. cbn in Hi. destruct Hi as [Hi|[Hi|[Hi|[Hi|[]]]]]; inversion Hi; reflexivity.
Qed.
Lemma loop_case : tidy arm2e qp_prog /\ compiled_by qp_prog 0 qp_demo /\ sound_lib loop_lib arm2e /\ t_shape loop_q = [m_nq arm2e] /\
  let d := update loop_lib arm2e (t_data loop_q) in wf_data arm2e d /\ Forall (accepted loop_lib d) (comps_of qp_demo) /\
  (forall j J, In j (comps_of qp_demo) -> is_barrier j = true -> jacobian loop_lib j d = Ok J -> frob2 J <> 0) /\
  (exists So, forall Q, assemble loop_lib arm2e qp_demo d = Ok Q -> minimises So Q) /\ may_rest loop_lib d qp_demo /\ admissible loop_lib d qp_demo [0; 0] /\
  map fst (jd_comps qp_demo) = ["hold"; "limits"; "loop"; "soft"]%string.
Proof.
  split; [exact qp_tidy|]. split; [apply qp_demo_compiled|]. split; [exact loop_sound|]. split; [reflexivity|]. assert (D : wf_data arm2e loop_at) by (apply loop_wf; reflexivity).
  split; [exact D|]. split; [exact loop_accepted|]. split; [exact loop_barrier|]. split; [exact loop_solver|]. split; [exact loop_rest|]. split; [|reflexivity].
  destruct (program_shaped loop_lib arm2e qp_prog 0 qp_demo qp_tidy (proj1 qp_demo_compiled) loop_sound loop_at D loop_accepted) as (_ & F & _). exact (rest_admissible loop_lib qp_demo loop_at F loop_rest).
Qed.
Lemma loop_unique_case : Exists (pins loop_lib (m_nv arm2e) loop_at) (comps_of qp_demo) /\ (exists j, In j (comps_of qp_demo) /\ is_barrier j = false /\ pins loop_lib (m_nv arm2e) loop_at j) /\
  Forall nonneg_weights (comps_of qp_demo) /\ exists v, best loop_lib loop_at qp_demo v.
Proof.
  split; [exact loop_pins|]. split; [eexists; split; [now left|split; [reflexivity|exact loop_pins_task]]|]. split; [exact qp_demo_nonneg|].
  destruct loop_case as (A & B & C & _ & D & E & F & _ & _ & G & _). apply (program_exists loop_lib arm2e qp_prog 0 qp_demo loop_at A B C D E F). eauto.
Qed.
Lemma loop_zero_case : tidy arm2e qp_prog /\ compiled_by qp_prog 0 qp_demo /\ registered qp_prog 0 "hold" 0 /\ sound_lib loop_lib arm2e /\ wf_data arm2e loop_at /\ Forall (accepted loop_lib loop_at) (comps_of qp_demo) /\
  exists j W lm k, In ("hold"%string, j) (jd_comps qp_demo) /\ j_ext j = JTask W lm k /\ ~ weightless j.
Proof.
  destruct loop_case as (A & B & C & _ & D & E & _). split; [exact A|]. split; [exact B|]. split; [exact qp_registered|]. split; [exact C|]. split; [exact D|]. split; [exact E|].
  do 4 eexists. split; [now left|]. split; [reflexivity|]. unfold weightless. cbn. intros H. specialize (H _ _ (or_introl eq_refl) (or_introl eq_refl)). lra.
Qed.
(** An empty problem. *)
Lemma loose_case : exists L m os pi pd d v w, tidy m os /\ compiled_by os pi pd /\ sound_lib L m /\ wf_data m d /\ Forall (accepted L d) (comps_of pd) /\
  Forall nonneg_weights (comps_of pd) /\ best L d pd v /\ best L d pd w /\ v <> w.
Proof.
  exists even_lib, arm2, lim_prog, 0%nat, lim_pd, (update even_lib arm2 [0; 0]), [0; 0], [1; 1].
  assert (T : forall x y, -2 <= x <= 1 -> -3 <= y <= 1 -> best even_lib (update even_lib arm2 [0; 0]) lim_pd [x; y]).
  { intros x y Hx Hy. split.
    - split; [reflexivity|]. cbn. unfold vle, vneg. cbn. split; [constructor; [lra|constructor; [lra|constructor]]|]. split; [constructor; [lra|constructor; [lra|constructor]]|constructor].
    - exists 0. split; [exists []; split; [constructor|reflexivity]|]. intros w _. exists 0. split; [exists []; split; [constructor|reflexivity]|lra]. }
  split; [|split; [exact lim_compiled|split; [apply even_sound|split; [now apply even_wf|split; [constructor|split; [constructor|split; [apply T; lra|split; [apply T; lra|]]]]]]]].
  - split; [apply chain_sound|]. split; [repeat constructor|]. split; [repeat constructor|]. split; [repeat constructor|]. split; [repeat constructor|].
    intros k o Hk Hb. destruct k as [|k]; [injection Hk as <-; contradiction|]. destruct k; discriminate.
  - intros H. injection H. lra.
Qed.
