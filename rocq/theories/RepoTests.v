(** The assertions of the repository's unit tests, replayed on the model.

    These are tests, not proofs of properties: they check that the model agrees
    with the numbers and exceptions the authors of the code wrote down.  Each
    example names the test it replays.  Models are given by their tables, as the
    MuJoCo compiler would fill them; poses computed by mjx are given as data. *)
From Verif Require Import Base Lin LinFacts Mjx Typing Component Read Problem Witness CompThms2 Rot Conf IntegrateFacts FrameJac Collide JaxComponents LocalIK GlobalIK.
From Verif Require Import SpecGlobal QPCases ConfCases CollideCases ValueThms2.
Open Scope R_scope.

(** Ask for an attribute; the outcome of a call. *)
Definition ask (x : attribute) (c : comp) : res value := fst (get x c).
Definition outcome (o : cop) (c : comp) : res unit := fst (run_cop o c).

(** The construction succeeds and the object satisfies [P]. *)
Definition makes (r : res comp) (P : comp -> Prop) : Prop := exists c, r = Ok c /\ P c.
Definition built (os : list cop) (c : comp) (P : jaxc -> Prop) : Prop := exists j, ask AJax (history os c) = Ok (VJax j) /\ P j.
#[local] Ltac numbers := cbv -[IZR INR Rplus Rminus Rmult Rdiv Ropp Rinv pow Rlt_dec Rle_dec not];
  repeat first [reflexivity | match goal with |- @eq R _ _ => lra | |- _ => f_equal end].
#[local] Ltac made := unfold new_com_task, new_joint_task, new_position_task, new_frame_task, new_custom_task, init_task; cbn;
  repeat match goal with |- context [Rlt_dec ?x 0] => destruct (Rlt_dec x 0) as [|_]; [lra|] end; reflexivity.

(** ** tests/unit_tests/components/test_base_component.py *)
(** test_update_gain, test_vector_gain *)
Example base_gain d f : makes (new_custom_barrier "test_component" (tscalar 2) None 0 None d f) (fun c =>
  (forall x, outcome (OpGain (tscalar x)) c = Ok tt /\ ask AGain (after (OpGain (tscalar x)) c) = Ok (VArray (tscalar x))) /\
  (forall v, outcome (OpGain (tvec v)) c = Ok tt /\ ask AGain (after (OpGain (tvec v)) c) = Ok (VArray (tvec v))) /\
  outcome (OpGain (mkT [3; 3]%nat [1; 0; 0; 0; 1; 0; 0; 0; 1])) c = Err ValueError).
Proof. eexists. split; [reflexivity|]. repeat split. Qed.
Example base_vector_gain f :
  makes (new_custom_barrier "test_component" (tscalar 1) None 0 None (-1) f) (fun c => ask AVectorGain c = Err ValueError) /\
  makes (new_custom_barrier "test_component" (tscalar 1) None 0 None 3 f) (fun c =>
    ask AVectorGain (after (OpGain (tscalar 3)) c) = Ok (VVec [3; 3; 3]) /\
    ask AVectorGain (after (OpGain (tvec [0; 1; 2])) c) = Ok (VVec [0; 1; 2]) /\
    ask AVectorGain (after (OpGain (tvec [1; 1; 1; 1])) c) = Err ValueError).
Proof. split; eexists; (split; [reflexivity|]); [reflexivity|]. repeat split. Qed.
(** test_mask *)
Example base_mask f :
  makes (new_custom_barrier "test_component" (tscalar 2) None 0 None (-1) f) (fun c =>
    ask AMask c = Err ValueError /\ ask AMaskIdxs c = Err ValueError) /\
  makes (new_custom_barrier "test_component" (tscalar 2) None 0 None 3 f) (fun c =>
    ask AMask c = Ok (VInts [1; 1; 1]%Z) /\ ask AMaskIdxs c = Ok (VInts [0; 1; 2]%Z)) /\
  makes (new_custom_barrier "masked_component" (tscalar 1) None 0 (Some (mvec [1; 0; 1]%Z)) 3 f) (fun c =>
    ask AMask c = Ok (VInts [1; 0; 1]%Z) /\ ask AMaskIdxs c = Ok (VInts [0; 2]%Z)) /\
  new_custom_barrier "wrong_masked_component" (tscalar 2) None 0 (Some (mkM [2; 2]%nat [1; 0; 0; 1]%Z)) (-1) f = Err ValueError.
Proof. repeat split; try (eexists; split; [reflexivity|]; repeat split). Qed.
(** test_gain_function *)
Example base_gain_fn f :
  makes (new_custom_barrier "gain_fn_component" (tscalar 2) (Some (fun x => x ^ 2)) 0 None (-1) f) (fun c =>
    exists g, ask AGainFn c = Ok (VFun g) /\ g 3 = 9).
Proof. eexists. split; [reflexivity|]. eexists. split; [reflexivity|]. cbn. lra. Qed.
(** test_building_component *)
Example base_building f m :
  makes (new_custom_barrier "test_component" (tscalar 2) None 0 None (-1) f) (fun c =>
    let set_dim := OpAssign (fun a => set_a_dim a 3) in
    ask AJax c = Err ValueError /\
    ask AJax (history [OpReadJax; OpModel m] c) = Err ValueError /\
    exists j, ask AJax (history [OpReadJax; OpModel m; OpReadJax; set_dim] c) = Ok (VJax j)).
Proof. eexists. split; [reflexivity|]. cbv zeta. repeat split. eexists. reflexivity. Qed.

(** ** tests/unit_tests/components/tasks/test_base_task.py *)
Definition hinge1 : mjmodel := chain [JHinge].
Example task_cost f d : makes (new_custom_task "test_task" (tscalar 2) (tscalar 1) None 0 None d f) (fun c =>
  (forall t, (ndim t <= 2)%nat -> outcome (OpCost t) c = Ok tt /\ ask ACost (after (OpCost t) c) = Ok (VArray t)) /\
  outcome (OpCost (mkT [3; 3; 3]%nat (repeat 0 27))) c = Err ValueError).
Proof.
  eexists. split; [made|]. split; [|reflexivity]. intros t H.
  assert (E : Nat.ltb 2 (ndim t) = false) by (apply Nat.ltb_ge; lia).
  unfold outcome, after, ask, run_cop, update_cost, mbind, read. cbv beta iota delta [c_at a_ext]. rewrite E. split; reflexivity.
Qed.
Example task_matrix_cost f :
  makes (new_custom_task "test_task" (tscalar 2) (tscalar 1) None 0 None (-1) f) (fun c => ask AMatrixCost (history [OpModel hinge1; OpCost (tscalar 1)] c) = Err ValueError) /\
  makes (new_custom_task "test_task" (tscalar 2) (tscalar 1) None 0 None 3 f) (fun c =>
    ask AMatrixCost (after (OpCost (tscalar 3)) c) = Ok (VMat [[3; 0; 0]; [0; 3; 0]; [0; 0; 3]]) /\
    ask AMatrixCost (after (OpCost (tvec [0; 1; 2])) c) = Ok (VMat [[0; 0; 0]; [0; 1; 0]; [0; 0; 2]]) /\
    ask AMatrixCost (after (OpCost (mkT [3; 3]%nat [1; 0; 0; 0; 1; 0; 0; 0; 1])) c) = Ok (VMat [[1; 0; 0]; [0; 1; 0]; [0; 0; 1]]) /\
    ask AMatrixCost (after (OpCost (tvec [1; 1; 1; 1])) c) = Err ValueError /\
    ask AMatrixCost (after (OpCost (mkT [4; 4]%nat [1; 0; 0; 0; 0; 1; 0; 0; 0; 0; 1; 0; 0; 0; 0; 1])) c) = Err ValueError).
Proof. split; eexists; (split; [made|]); [reflexivity|]. repeat split; numbers. Qed.
Example task_lm_damping f d :
  makes (new_custom_task "lm_specific_task" (tscalar 1) (tscalar 1) None 5 None d f) (fun c => ask ALmDamping c = Ok (VReal 5)) /\
  new_custom_task "negative_lm_task" (tscalar 1) (tscalar 1) None (-5) None d f = Err ValueError.
Proof. split; [eexists; split; [made|reflexivity]|]. unfold new_custom_task, init_task. cbn. destruct (Rlt_dec (-5) 0); [reflexivity|lra]. Qed.

(** ** tests/unit_tests/components/tasks/test_com_task.py *)
Example com_dim : makes (new_com_task "com_task_masked" (tscalar 1) (tscalar 1) None 0 (Some (mvec [1; 0; 1]%Z))) (fun c => ask ADim c = Ok (VInt 2)).
Proof. eexists. split; [made|reflexivity]. Qed.
Example com_mask : new_com_task "com_task_small_mask" (tscalar 1) (tscalar 1) None 0 (Some (mvec [1; 0]%Z)) = Err ValueError /\
  new_com_task "com_task_big_mask" (tscalar 1) (tscalar 1) None 0 (Some (mvec [1; 0; 1; 0]%Z)) = Err ValueError.
Proof. split; reflexivity. Qed.
Example com_target : makes (new_com_task "com_task_default" (tscalar 1) (tscalar 1) None 0 None) (fun c =>
  outcome (OpTargetCom (tvec [1; 2; 3])) c = Ok tt /\ ask ATargetCom (after (OpTargetCom (tvec [1; 2; 3])) c) = Ok (VArray (tvec [1; 2; 3])) /\
  outcome (OpTargetCom (tvec [0; 1; 2; 3])) c = Err ValueError).
Proof. eexists. split; [made|]. repeat split. Qed.
(** the model's centre of mass is at (0.3, 0.3, 0.3) *)
Definition with_com (m : mjmodel) (c : list R) : mjdata := set_subtree_com (straight m (repeat 0 (m_nq m))) (repeat c (m_nbody m)).
Example com_build L : makes (new_com_task "com_task" (tscalar 1) (tscalar 2) (Some (fun x => 2 * x)) (1 / 2) (Some (mvec [1; 1; 0]%Z))) (fun c =>
  built [OpModel hinge1; OpTargetCom (tvec [- (3 / 10); 3 / 10])] c (fun j =>
    j_dim j = 2%Z /\ j_gain j = [2; 2] /\ j_gain_fn j 4 = 8 /\ j_mask_idxs j = [0; 1]%Z /\
    j_ext j = JTask [[1; 0]; [0; 1]] (1 / 2) (JTCom (tvec [- (3 / 10); 3 / 10])) /\
    call L j (with_com hinge1 [3 / 10; 3 / 10; 3 / 10]) = Ok [6 / 10; 0])).
Proof. eexists. split; [made|]. eexists. split; [reflexivity|]. repeat split; numbers. Qed.

(** ** tests/unit_tests/components/tasks/test_joint_task.py *)
Definition hinge3 : mjmodel := chain [JHinge; JHinge; JHinge].
Definition floating3 : mjmodel := chain [JFree; JHinge; JHinge; JHinge].
Example joint_no_mask : makes (new_joint_task "jnt_task" (tscalar 1) (tscalar 1) None 0 None) (fun c =>
  ask ADim c = Err ValueError /\ ask ATargetQ c = Err ValueError /\
  let c := after (OpModel hinge3) c in
  ask ADim c = Ok (VInt 3) /\ ask ATargetQ c = Ok (VArray (tvec [0; 0; 0])) /\
  outcome (OpTargetQ (tvec [1; 1; 1])) c = Ok tt /\ outcome (OpTargetQ (tvec [1; 1; 1; 1])) c = Err ValueError).
Proof. eexists. split; [made|]. cbv zeta. repeat split. Qed.
Example joint_with_mask :
  makes (new_joint_task "jnt_task" (tscalar 1) (tscalar 1) None 0 (Some [1; 1; 0]%Z)) (fun c =>
    let c := after (OpModel hinge3) c in
    ask ADim c = Ok (VInt 2) /\ ask ATargetQ c = Ok (VArray (tvec [0; 0])) /\
    outcome (OpTargetQ (tvec [1; 1])) c = Ok tt /\ outcome (OpTargetQ (tvec [1; 1; 1])) c = Err ValueError) /\
  makes (new_joint_task "jnt_task" (tscalar 1) (tscalar 1) None 0 (Some [1; 0]%Z)) (fun c => outcome (OpModel hinge3) c = Err ValueError).
Proof. split; eexists; (split; [made|]); [cbv zeta; repeat split|reflexivity]. Qed.
Example joint_target :
  makes (new_joint_task "jnt_task" (tscalar 1) (tscalar 1) None 0 None) (fun c =>
    ask ATargetQ (after (OpTargetQ (tvec [1; 2; 3])) c) = Ok (VArray (tvec [1; 2; 3])) /\
    outcome (OpTargetQ (tvec [1; 2])) (after (OpTargetQ (tvec [1; 2; 3])) c) = Ok tt /\
    outcome (OpModel hinge3) (history [OpTargetQ (tvec [1; 2; 3]); OpTargetQ (tvec [1; 2])] c) = Err ValueError) /\
  makes (new_joint_task "jnt_task" (tscalar 1) (tscalar 1) None 0 (Some [1; 1; 0]%Z)) (fun c =>
    outcome (OpModel hinge3) (after (OpTargetQ (tvec [1; 2])) c) = Ok tt).
Proof. split; eexists; (split; [made|]); repeat split. Qed.
Example joint_build L : makes (new_joint_task "jnt_task" (tscalar 1) (tscalar 2) (Some (fun x => 2 * x)) (1 / 2) (Some [1; 0; 1]%Z)) (fun c =>
  built [OpModel hinge3; OpTargetQ (tvec [- (2 / 10); 4 / 10])] c (fun j =>
    j_dim j = 2%Z /\ j_gain j = [2; 2] /\ j_gain_fn j 4 = 8 /\ j_mask_idxs j = [0; 2]%Z /\
    (exists q, j_ext j = JTask [[1; 0]; [0; 1]] (1 / 2) (JTJoint (tvec [- (2 / 10); 4 / 10]) q)) /\
    call L j (straight hinge3 [0; 0; 0]) = Ok [2 / 10; - (4 / 10)])).
Proof. eexists. split; [made|]. eexists. split; [reflexivity|]. repeat split; try eexists; numbers. Qed.
Example joint_floating L : makes (new_joint_task "test_task" (tscalar 1) (tscalar 1) None 0 None) (fun c =>
  ask ADim (after (OpModel floating3) c) = Ok (VInt 3) /\
  let t := OpTargetQ (tvec [5 / 10; 1; - (5 / 10)]) in
  ask ATargetQ (history [OpModel floating3; t] c) = Ok (VArray (tvec [5 / 10; 1; - (5 / 10)])) /\
  built [OpModel floating3; t] c (fun j =>
    call L j (straight floating3 [0; 0; 0; 0; 0; 0; 0; 0; 0; 0]) = Ok [- (5 / 10); -1; 5 / 10] /\
    let d := straight floating3 [1; 2; 3; 1; 0; 0; 0; 2 / 10; 8 / 10; - (3 / 10)] in
    call L j d = Ok [- (3 / 10); - (2 / 10); 2 / 10] /\
    jacobian L j d = Ok [[0; 0; 0; 0; 0; 0; 1; 0; 0]; [0; 0; 0; 0; 0; 0; 0; 1; 0]; [0; 0; 0; 0; 0; 0; 0; 0; 1]])).
Proof. eexists. split; [made|]. cbv zeta. split; [reflexivity|]. split; [reflexivity|]. eexists. split; [reflexivity|]. repeat split; numbers. Qed.

(** ** tests/unit_tests/components/tasks/test_obj_frame_task.py, test_obj_position_task.py *)
Definition hinge3_named : mjmodel := with_names hinge3 [(OBody, "body1"%string, 1%Z); (OBody, "body2"%string, 2%Z); (OBody, "body3"%string, 3%Z)].
Example frame_target : makes (new_frame_task "frame_task" (tscalar 1) (tscalar 2) "body3" OBody None 0 None) (fun c =>
  ask ATargetFrame c = Ok (VArray (tvec [1; 0; 0; 0; 0; 0; 0])) /\
  (let t := tvec [1 / 10; 2 / 10; - (1 / 10); 0; 1; 0; 0] in ask ATargetFrame (after (OpTargetFrame (FSE3 t)) c) = Ok (VArray t)) /\
  (let t := tvec [-1; 0; 1; 0; 0; 1; 0] in ask ATargetFrame (after (OpTargetFrame (FArr t)) c) = Ok (VArray (tvec [0; 0; 1; 0; -1; 0; 1]))) /\
  outcome (OpTargetFrame (FArr (tvec [-1; 0; 1; 0; 0; 1; 0; 1]))) c = Err ValueError).
Proof. eexists. split; [made|]. repeat split; numbers. Qed.
(** all bodies of the model have their frames at the origin *)
Definition at_origin (m : mjmodel) : mjdata :=
  let d := straight m (repeat 0 (m_nq m)) in
  {| d_qpos := d_qpos d; d_xpos := repeat [0; 0; 0] (m_nbody m); d_xmat := d_xmat d; d_xquat := d_xquat d; d_xipos := d_xipos d;
     d_geom_xpos := d_geom_xpos d; d_geom_xmat := d_geom_xmat d; d_site_xpos := d_site_xpos d; d_site_xmat := d_site_xmat d;
     d_subtree_com := d_subtree_com d; d_cdof := d_cdof d; d_efc_pos := []; d_efc_is_equality := []; d_efc_J := [] |}.
Lemma at_origin_frame : get_frame (at_origin hinge3_named) 3 OBody = Ok (mkS q_one (mkV 0 0 0)).
Proof.
  unfold get_frame, get_rotation. change (object_mat (at_origin hinge3_named) 3 OBody) with (Ok m3_id). cbn [bind].
  rewrite from_matrix_id. reflexivity.
Qed.
Lemma log_shift eps p : se3_log eps (mkS (mkQ 1 0 0 0) p) = [vx p; vy p; vz p; 0; 0; 0].
Proof.
  unfold se3_log, so3_log. cbn [s_rot s_pos]. set (f := so3_factor eps _). set (k := v3_scale f _).
  assert (K : k = mkV 0 0 0) by (unfold k, v3_scale; cbn; f_equal; ring). rewrite K. unfold v_inv. set (g := if Rlt_dec _ _ then _ else _).
  unfold v3_list, v3_add, v3_sub, v3_scale, cross. cbn. repeat (f_equal; try ring).
Qed.
Example frame_build L :
  makes (new_frame_task "frame_task" (tscalar 1) (tscalar 2) "body3" OBody (Some (fun x => 2 * x)) (1 / 2) (Some (mvec [1; 0; 1; 1; 0; 1]%Z))) (fun c =>
  built [OpModel hinge3_named; OpTargetFrame (FArr (tvec [1 / 10; 0; - (1 / 10); 1; 0; 0; 0]))] c (fun j =>
    j_dim j = 4%Z /\ j_gain j = [2; 2; 2; 2] /\ j_gain_fn j 4 = 8 /\ j_mask_idxs j = [0; 2; 3; 5]%Z /\
    j_ext j = JTask [[1; 0; 0; 0]; [0; 1; 0; 0]; [0; 0; 1; 0]; [0; 0; 0; 1]] (1 / 2) (JTFrame 3 OBody (tvec [1; 0; 0; 0; 1 / 10; 0; - (1 / 10)])) /\
    call L j (at_origin hinge3_named) = Ok [1 / 10; - (1 / 10); 0; 0])).
Proof.
  eexists. split; [made|]. eexists. split; [reflexivity|].
  do 5 (split; [numbers|]).
  unfold call. cbn [j_ext j_mask_idxs]. unfold call_frame.
  match goal with |- context [get_frame _ ?i ?t] => change i with 3%Z; change t with OBody end. rewrite at_origin_frame.
  match goal with |- context [vec_of ?t] => change (vec_of t) with (Ok [1; 0; 0; 0; 1 / 10; 0; - (1 / 10)]) end. cbn [bind se3_of].
  replace (se3_mul _ _) with (mkS (mkQ 1 0 0 0) (mkV (1 / 10) 0 (- (1 / 10)))); [rewrite log_shift; reflexivity|].
  unfold se3_mul, se3_inv, q_mul, q_conj, q_app, q_one, v3_add, v3_neg. cbn. f_equal; f_equal; field.
Qed.
Example pos_target : makes (new_position_task "pos_task" (tscalar 1) (tscalar 2) "body3" OBody None 0 None) (fun c =>
  ask ATargetPos c = Ok (VArray (tvec [0; 0; 0])) /\
  ask ATargetPos (after (OpTargetPos (tvec [-1; 0; 1])) c) = Ok (VArray (tvec [-1; 0; 1])) /\
  outcome (OpTargetPos (tvec [0; 1; 2; 3; 4])) c = Err ValueError).
Proof. eexists. split; [made|]. repeat split. Qed.
Example pos_build L : makes (new_position_task "frame_task" (tscalar 1) (tscalar 2) "body3" OBody (Some (fun x => 2 * x)) (1 / 2) (Some (mvec [1; 0; 1]%Z))) (fun c =>
  built [OpModel hinge3_named; OpTargetPos (tvec [1 / 10; - (1 / 10)])] c (fun j =>
    j_dim j = 2%Z /\ j_gain j = [2; 2] /\ j_gain_fn j 4 = 8 /\ j_mask_idxs j = [0; 2]%Z /\
    j_ext j = JTask [[1; 0]; [0; 1]] (1 / 2) (JTPos 3 OBody (tvec [1 / 10; - (1 / 10)])) /\
    call L j (at_origin hinge3_named) = Ok [- (1 / 10); 1 / 10])).
Proof. eexists. split; [made|]. eexists. split; [reflexivity|]. repeat split; numbers. Qed.

(** ** tests/unit_tests/components/tasks/test_obj_task.py, barriers/test_obj_barrier.py *)
Definition hinge1_named : mjmodel := with_names hinge1 [(OBody, "body1"%string, 1%Z); (OGeom, "geom1"%string, 0%Z); (OSite, "site1"%string, 0%Z)].
Example obj_ids : forall ty name i, In (ty, name, i) (m_names hinge1_named) ->
  makes (new_position_task "obj_task" (tscalar 1) (tscalar 1) name ty None 0 None) (fun c =>
    let c := after (OpModel hinge1_named) c in
    ask AObjId c = Ok (VInt i) /\ ask AObjName c = Ok (VString name) /\ ask AObjType c = Ok (VObjType ty)) /\
  makes (new_position_barrier "obj_barrier" (tscalar 1) name ty None None "both" None 0 None) (fun c =>
    ask AObjId c = Err ValueError /\
    let c := after (OpModel hinge1_named) c in
    ask AObjId c = Ok (VInt i) /\ ask AObjName c = Ok (VString name) /\ ask AObjType c = Ok (VObjType ty)).
Proof.
  intros ty name i [E|[E|[E|[]]]]; injection E as <- <- <-; (split; (eexists; split; [made|]; repeat split)).
Qed.
Example obj_unknown :
  makes (new_position_task "obj_task" (tscalar 1) (tscalar 1) "invalid_obj" OBody None 0 None) (fun c => outcome (OpModel hinge1_named) c = Err ValueError) /\
  makes (new_position_barrier "obj_barrier" (tscalar 1) "invalid_obj" OBody None None "both" None 0 None) (fun c => outcome (OpModel hinge1_named) c = Err ValueError).
Proof. split; (eexists; split; [made|reflexivity]). Qed.

(** ** tests/unit_tests/components/barriers/test_base_barrier.py *)
Example barrier_sdg f d : makes (new_custom_barrier "test_component" (tscalar 2) None 0 None d f) (fun c =>
  ask ASafeDisplacementGain (after (OpAssign (fun a => set_a_ext a (XBarrier 5 (BCustom f)))) c) = Ok (VReal 5)).
Proof. eexists. split; reflexivity. Qed.

(** ** tests/unit_tests/components/barriers/test_joint_barrier.py *)
Example jbar_limits : makes (new_joint_barrier "test_barrier" (tscalar 1) None 0 (Some (tvec [-1])) (Some (tvec [1])) None) (fun c =>
  let c := after (OpModel hinge1) c in
  ask AQMin c = Ok (VArray (tvec [-1])) /\ ask AQMax c = Ok (VArray (tvec [1])) /\ ask ADim c = Ok (VInt 2) /\
  ask AQMin (after (OpQMin (tvec [-2])) c) = Ok (VArray (tvec [-2])) /\ outcome (OpQMin (tvec [-2; -2])) c = Err ValueError /\
  ask AQMax (after (OpQMax (tvec [2])) c) = Ok (VArray (tvec [2])) /\ outcome (OpQMax (tvec [2; 2])) c = Err ValueError /\
  built [] c (fun j => j_dim j = 2%Z /\ j_gain j = [1; 1] /\ j_ext j = JBarrier 0 (JBJoint (tvec [-1]) (tvec [1]) [0%Z]))).
Proof. eexists. split; [reflexivity|]. cbv zeta. repeat split. eexists. split; [reflexivity|]. repeat split. Qed.
Example jbar_default : makes (new_joint_barrier "test_barrier" (tscalar 1) None 0 None None None) (fun c =>
  ask AQMin c = Err ValueError /\ ask AQMax c = Err ValueError /\
  let c := after (OpModel hinge1) c in
  ask AQMin c = Ok (VArray (tvec (map fst (m_jnt_range hinge1)))) /\ ask AQMax c = Ok (VArray (tvec (map snd (m_jnt_range hinge1))))).
Proof. eexists. split; [reflexivity|]. cbv zeta. repeat split. Qed.
Example jbar_floating L : makes (new_joint_barrier "test_barrier" (tscalar 1) None 0 (Some (tvec [-1; -1; -1])) (Some (tvec [1; 1; 1])) None) (fun c =>
  ask ADim (after (OpModel floating3) c) = Ok (VInt 6) /\
  built [OpModel floating3] c (fun j =>
    (forall x y z, call L j (straight floating3 [0; 0; 0; 1; 0; 0; 0; x; y; z]) = Ok [x - -1; y - -1; z - -1; 1 - x; 1 - y; 1 - z]) /\
    call L j (straight floating3 [0; 0; 0; 1; 0; 0; 0; - (9 / 10); - (9 / 10); - (9 / 10)]) = Ok [1 / 10; 1 / 10; 1 / 10; 19 / 10; 19 / 10; 19 / 10] /\
    jacobian L j (straight floating3 [0; 0; 0; 1; 0; 0; 0; 9 / 10; 9 / 10; 9 / 10]) =
      Ok [[0; 0; 0; 0; 0; 0; 1; 0; 0]; [0; 0; 0; 0; 0; 0; 0; 1; 0]; [0; 0; 0; 0; 0; 0; 0; 0; 1];
          [0; 0; 0; 0; 0; 0; -1; 0; 0]; [0; 0; 0; 0; 0; 0; 0; -1; 0]; [0; 0; 0; 0; 0; 0; 0; 0; -1]])).
Proof. eexists. split; [reflexivity|]. split; [reflexivity|]. eexists. split; [reflexivity|]. repeat split; numbers. Qed.

(** ** tests/unit_tests/components/barriers/test_obj_position_barrier.py *)
Definition free1 : mjmodel := with_names (chain [JFree]) [(OBody, "body1"%string, 1%Z)].
Definition box (lt : string) (lo hi : option tensor) : res comp := new_position_barrier "test_barrier" (tscalar 1) "body1" OBody lo hi lt None 0 None.
Example pbar_init : makes (box "both" (Some (tvec [-1; -1; -1])) (Some (tvec [1; 1; 1]))) (fun c =>
  let c := after (OpModel free1) c in
  ask AName c = Ok (VString "test_barrier") /\ ask AObjName c = Ok (VString "body1") /\ ask AObjId c = Ok (VInt 1) /\
  ask APMin c = Ok (VArray (tvec [-1; -1; -1])) /\ ask APMax c = Ok (VArray (tvec [1; 1; 1])) /\ ask ALimitType c = Ok (VLimit LBoth) /\
  built [] c (fun j => j_dim j = 6%Z /\ j_gain j = [1; 1; 1; 1; 1; 1] /\
    exists lt, j_ext j = JBarrier 0 (JBPos 1 OBody (tvec [-1; -1; -1]) (tvec [1; 1; 1]) lt))).
Proof. eexists. split; [reflexivity|]. cbv zeta. repeat split. eexists. split; [reflexivity|]. repeat split. eexists. reflexivity. Qed.
Example pbar_p_min : makes (box "min" (Some (tvec [-1; -1; -1])) None) (fun c =>
  ask APMin (after (OpPMin (tscalar (1 / 10))) c) = Ok (VArray (tvec [1 / 10; 1 / 10; 1 / 10])) /\
  ask APMin (after (OpPMin (tvec [-2; -2; -2])) c) = Ok (VArray (tvec [-2; -2; -2])) /\
  outcome (OpPMin (tvec [-2; -2])) c = Err ValueError /\
  outcome (OpPMax (tvec [1; 1; 1])) c = Ok tt /\ ask APMax (after (OpPMax (tvec [1; 1; 1])) c) = ask APMax c).
Proof. eexists. split; [reflexivity|]. repeat split. Qed.
Example pbar_p_max : makes (box "max" None (Some (tvec [1; 1; 1]))) (fun c =>
  ask APMax (after (OpPMax (tscalar (1 / 10))) c) = Ok (VArray (tvec [1 / 10; 1 / 10; 1 / 10])) /\
  ask APMax (after (OpPMax (tvec [2; 2; 2])) c) = Ok (VArray (tvec [2; 2; 2])) /\
  outcome (OpPMax (tvec [2; 2])) c = Err ValueError /\
  outcome (OpPMin (tvec [1; 1; 1])) c = Ok tt /\ ask APMin (after (OpPMin (tvec [1; 1; 1])) c) = ask APMin c).
Proof. eexists. split; [reflexivity|]. repeat split. Qed.
Example pbar_dims :
  makes (box "min" (Some (tvec [-1; -1; -1])) None) (fun c => ask ADim c = Ok (VInt 3) /\ ask ALimitType c = Ok (VLimit LMin)) /\
  makes (box "max" None (Some (tvec [1; 1; 1]))) (fun c => ask ADim c = Ok (VInt 3) /\ ask ALimitType c = Ok (VLimit LMax)) /\
  makes (box "both" (Some (tvec [-1; -1; -1])) (Some (tvec [1; 1; 1]))) (fun c => ask ADim c = Ok (VInt 6) /\ ask ALimitType c = Ok (VLimit LBoth)) /\
  box "invalid" None None = Err ValueError.
Proof. repeat split; try (eexists; split; [reflexivity|]; repeat split). Qed.
Definition body_at (m : mjmodel) (p : list R) : mjdata :=
  let d := at_origin m in
  {| d_qpos := d_qpos d; d_xpos := repeat p (m_nbody m); d_xmat := d_xmat d; d_xquat := d_xquat d; d_xipos := d_xipos d;
     d_geom_xpos := d_geom_xpos d; d_geom_xmat := d_geom_xmat d; d_site_xpos := d_site_xpos d; d_site_xmat := d_site_xmat d;
     d_subtree_com := d_subtree_com d; d_cdof := d_cdof d; d_efc_pos := []; d_efc_is_equality := []; d_efc_J := [] |}.
Example pbar_call L :
  call L (mkJ 3 free1 [1; 1; 1] (fun x => x) [0; 1; 2]%Z (JBarrier 0 (JBPos 1 OBody (tvec [-1; -1; -1]) (tvec [1; 1; 1]) [0; 1; 2; 3; 4; 5]%Z)))
    (body_at free1 [0; 5 / 10; - (5 / 10)]) = Ok [1; 15 / 10; 5 / 10; 1; 5 / 10; 15 / 10].
Proof. numbers. Qed.

(** ** tests/unit_tests/components/barriers/test_self_collision_barrier.py *)
Definition four_bodies : mjmodel :=
  let m := chain [JHinge; JHinge; JHinge; JHinge] in
  {| m_nq := 4; m_nv := 4; m_njnt := 4; m_nbody := 5; m_neq := 0;
     m_jnt_type := m_jnt_type m; m_jnt_qposadr := m_jnt_qposadr m; m_jnt_dofadr := m_jnt_dofadr m;
     m_jnt_range := m_jnt_range m; m_body_weldid := [0; 1; 2; 3; 4]%Z; m_body_parentid := [0; 0; 0; 2; 3]%Z;
     m_body_rootid := [0; 1; 2; 2; 2]%Z; m_body_geomadr := [-1; 0; 1; 2; 3]%Z; m_body_geomnum := [0; 1; 1; 1; 1]%Z;
     m_body_mass := m_body_mass m; m_geom_bodyid := [1; 2; 3; 4]%Z; m_geom_contype := [1; 1; 1; 2]%Z;
     m_geom_conaffinity := [1; 1; 1; 2]%Z; m_geom_type := m_geom_type m; m_geom_dataid := m_geom_dataid m;
     m_geom_priority := m_geom_priority m; m_geom_condim := m_geom_condim m; m_site_bodyid := [];
     m_dof_bodyid := m_dof_bodyid m; m_eq_type := [];
     m_names := [(OBody, "body1"%string, 1%Z); (OBody, "body2"%string, 2%Z); (OBody, "body3"%string, 3%Z); (OBody, "body4"%string, 4%Z)] |}.
Example self_init : makes (new_self_collision "test_barrier" (tscalar 1) None 0 (1 / 10) [CBStr "body1"; CBStr "body2"] [(CBStr "body1", CBStr "body2")] (-1)) (fun c =>
  ask ADMinVec c = Err ValueError /\
  let c := after (OpModel four_bodies) c in
  ask AName c = Ok (VString "test_barrier") /\ ask ADMin c = Ok (VReal (1 / 10)) /\ ask ACollisionBodies c = Ok (VBodies [CBStr "body1"; CBStr "body2"]) /\
  exists s, self_of (c_at c) = Ok s /\ sc_excl s = Some [sorted_pair 1 2]).
Proof. eexists. split; [reflexivity|]. cbv zeta. repeat split. eexists. split; reflexivity. Qed.
Example self_pairs : makes (new_self_collision "test_barrier" (tscalar 1) None 0 (1 / 10) [] [] (-1)) (fun c =>
  ask ACollisionPairs (after (OpModel four_bodies) c) = Ok (VPairs [(0, 1); (0, 2)]%Z) /\
  ask ADMinVec (after (OpModel four_bodies) c) = Ok (VVec [1 / 10; 1 / 10]) /\
  built [OpModel four_bodies] c (fun j => j_dim j = 2%Z /\ j_gain j = [1; 1] /\ j_ext j = JBarrier 0 (JBSelf [1 / 10; 1 / 10] [(0, 1); (0, 2)]%Z 2))).
Proof. eexists. split; [reflexivity|]. repeat split. eexists. split; [reflexivity|]. repeat split. Qed.
Example self_exclusion : makes (new_self_collision "test_barrier" (tscalar 1) None 0 (1 / 10) [] [(CBStr "body1", CBStr "body2")] (-1)) (fun c =>
  ask ACollisionPairs (after (OpModel four_bodies) c) = Ok (VPairs [(0, 2)]%Z)).
Proof. eexists. split; reflexivity. Qed.
Example self_body2id : body2id four_bodies (CBStr "body1") = Ok 1%Z /\ body2id four_bodies (CBInt 1) = Ok 1%Z /\ body2id four_bodies CBOther = Err ValueError.
Proof. repeat split. Qed.
Example self_body_pairs : map (fun p => validate_body_pair four_bodies (fst p) (snd p)) [(1, 2); (1, 3); (2, 4); (2, 3); (3, 4)]%Z = [Ok true; Ok true; Ok true; Ok false; Ok false].
Proof. reflexivity. Qed.
Example self_geom_pairs : map (fun p => validate_geom_pair four_bodies (fst p) (snd p)) [(0, 1); (0, 2); (1, 2); (3, 0); (3, 1); (3, 2)]%Z = [Ok true; Ok true; Ok true; Ok false; Ok false; Ok false].
Proof. reflexivity. Qed.

(** ** tests/unit_tests/components/constraints/test_base_constraint.py *)
Definition soft (t : option tensor) (f : mjdata -> list R) : res comp := new_custom_constraint "dummy" (tscalar 1) None false t 3 f.
Example constraint_soft_cost f :
  makes (soft None f) (fun c => ask ASoftCost c = Ok (VMat [[100; 0; 0]; [0; 100; 0]; [0; 0; 100]])) /\
  makes (soft (Some (tscalar 10)) f) (fun c => ask ASoftCost c = Ok (VMat [[10; 0; 0]; [0; 10; 0]; [0; 0; 10]])) /\
  makes (soft (Some (tvec [1; 2; 3])) f) (fun c => ask ASoftCost c = Ok (VMat [[1; 0; 0]; [0; 2; 0]; [0; 0; 3]])) /\
  makes (soft (Some (tvec [1; 2])) f) (fun c => ask ASoftCost c = Err ValueError) /\
  makes (soft (Some (mkT [3; 3]%nat [1; 0; 0; 0; 2; 0; 0; 0; 3])) f) (fun c => ask ASoftCost c = Ok (VMat [[1; 0; 0]; [0; 2; 0]; [0; 0; 3]])) /\
  makes (soft (Some (mkT [2; 2]%nat [1; 0; 0; 2])) f) (fun c => ask ASoftCost c = Err ValueError) /\
  makes (soft (Some (mkT [3; 3; 1]%nat (repeat 1 9))) f) (fun c => ask ASoftCost c = Err ValueError).
Proof. repeat split; (eexists; split; [reflexivity|]; numbers). Qed.

(** ** tests/unit_tests/test_problem.py *)
Definition com_with (name : string) : comp := mkC (mkA name None (tscalar 1) (fun x => x) 3 None [] (XTask (tscalar 1) 0 (TCom (tvec [0; 0; 0])))) true None.
Example com_with_made name : new_com_task name (tscalar 1) (tscalar 1) None 0 None = Ok (com_with name).
Proof. made. Qed.
Definition bar_with (name : string) : comp := unwrap (new_joint_barrier name (tscalar 1) None 0 None None None) (com_with "").
Definition start : list wop := [WNewProblem hinge1 (tscalar 0) (tscalar 0)].
Definition says (os : list wop) (o : wop) : res out := fst (step o (run os empty_world)).
Definition limits_shown (os : list wop) : res (list R * list R) :=
  match says os (WCompile 0) with Ok (OData d) => Ok (jd_vmin d, jd_vmax d) | Ok _ => Err TypeError | Err e => Err e end.
Example problem_limits :
  limits_shown (start ++ [WVmin 0 (tscalar 1)]) = Ok ([1], [0]) /\ limits_shown (start ++ [WVmax 0 (tscalar 1)]) = Ok ([0], [1]) /\
  says start (WVmin 0 (tvec [1; 2; 3])) = Err ValueError /\ says start (WVmax 0 (tvec [1; 2; 3])) = Err ValueError /\
  limits_shown (start ++ [WVmin 0 (tvec [7])]) = Ok ([7], [0]) /\ limits_shown (start ++ [WVmax 0 (tvec [7])]) = Ok ([0], [7]) /\
  says start (WVmin 0 (mkT [1; 1]%nat [1])) = Err ValueError /\ says start (WVmax 0 (mkT [1; 1]%nat [1])) = Err ValueError.
Proof. repeat split. Qed.
Example problem_add :
  let os := start ++ [WNewComp (com_with "test_component"); WAdd 0 0] in
  (exists d j, says os (WCompile 0) = Ok (OData d) /\ jd_comps d = [("test_component"%string, j)] /\ exists W lm t, j_ext j = JTask W lm (JTCom t)) /\
  map c_modified (w_comps (run (os ++ [WCompile 0]) empty_world)) = [false] /\
  map (fun c => a_model (c_at c)) (w_comps (run os empty_world)) = [Some hinge1] /\
  says (os ++ [WNewComp (bar_with "test_component")]) (WAdd 0 1) = Err ValueError.
Proof. cbv zeta. split; [|repeat split]. do 2 eexists. repeat split. do 3 eexists. reflexivity. Qed.
Example problem_remove :
  exists d, says (start ++ [WNewComp (com_with "test_component"); WAdd 0 0; WRemove 0 "test_component"]) (WCompile 0) = Ok (OData d) /\ jd_comps d = [].
Proof. eexists. split; reflexivity. Qed.
Example problem_access :
  let os := start ++ [WNewComp (com_with "test_task"); WNewComp (bar_with "test_barrier"); WAdd 0 0; WAdd 0 1] in
  says os (WComponent 0 "test_task") = Ok (ORef 0) /\ says os (WComponent 0 "non_existens_component") = Err ValueError /\
  says os (WTask 0 "test_task") = Ok (ORef 0) /\ says os (WTask 0 "test_barrier") = Err ValueError /\ says os (WTask 0 "non_existent_task") = Err ValueError /\
  says os (WBarrier 0 "test_barrier") = Ok (ORef 1) /\ says os (WBarrier 0 "test_task") = Err ValueError /\ says os (WBarrier 0 "non_existent_task") = Err ValueError.
Proof. repeat split. Qed.

(** ** tests/unit_tests/solvers/test_local_ik.py *)
Example local_init : LocalIK.init hinge1 None = Ok [0] /\ LocalIK.init hinge1 (Some (tvec [0; 1])) = Err ValueError /\ LocalIK.init hinge1 (Some (tvec [0])) = Ok [0].
Proof. repeat split. Qed.
Example local_solve L S v pd :
  solve L S hinge1 (tvec [1; 1]) v pd = Err ValueError /\
  (forall sol v', solve L S hinge1 (tvec [1]) v pd = Ok (sol, v') -> sol_primal sol = v') /\
  solve L S hinge1 (tvec [1]) v pd = solve_from_data L S hinge1 v pd (update L hinge1 [1]).
Proof.
  split; [reflexivity|]. split; [|reflexivity]. intros sol v'. cbn. unfold solve_from_data. destruct (assemble _ _ _ _); [|discriminate]. cbn. now intros [= <- <-].
Qed.
Example local_no_constraints L d : exists Q, assemble L hinge1 (mkJD hinge1 [0] [1] []) d = Ok Q /\ qp_eq Q = None /\ List.length (qp_G Q) = 2%nat /\ List.length (qp_h Q) = 2%nat.
Proof. eexists. repeat split. Qed.
Example local_dummy L d : solve_from_data L (fun _ => mkSol [1] [0] [0]) hinge1 [0] (mkJD hinge1 [0] [1] []) d = Ok (mkSol [1] [0] [0], [1]).
Proof. reflexivity. Qed.

(** ** tests/unit_tests/solvers/test_global_ik.py *)
Example global_init O : ginit O hinge1 (tvec [0; 1]) = Err ValueError /\ exists st, ginit O hinge1 (tvec [0]) = Ok st.
Proof. split; [reflexivity|]. eexists. reflexivity. Qed.
Example global_solve L g O dt st pd d :
  gsolve L g O hinge1 dt (tvec [1; 1]) st pd = Err ValueError /\
  gsolve L g O hinge1 dt (tvec [1]) st pd = gsolve_from_data L g O hinge1 dt st pd (set_qpos d [1]).
Proof. split; reflexivity. Qed.

(** ** tests/unit_tests/configuration/test_configuration.py *)
Definition mixed : mjmodel := chain [JSlide; JHinge; JBall].
Example conf_limit : (exists A b, get_configuration_limit mixed (LFloat 1) = Ok (A, b) /\ is_matb 10 5 A = true /\ List.length b = 10%nat) /\
  exists A, get_configuration_limit mixed (LArr (tvec [1 / 2; 1; 3 / 2])) = Ok (A, [1 / 2; 1; 3 / 2; 1 / 2; 1; 3 / 2]) /\ is_matb 10 5 A = true.
Proof. split; [do 2 eexists|eexists]; repeat split. Qed.
Definition complex : mjmodel := chain [JFree; JBall; JHinge; JSlide].
Example conf_zero : (exists z, get_joint_zero complex = Ok z /\ List.length z = 13%nat) /\ (exists z, get_joint_zero mixed = Ok z /\ List.length z = m_nq mixed).
Proof. split; eexists; split; reflexivity. Qed.
Example conf_difference eps :
  (exists v, joint_difference eps complex [1; 0; 0; 0; 0; 0; 0; 1; 0; 0; 0; 5 / 10; 2 / 10] [1; 0; 0; 0; 1; 0; 0; 0; 1; 0; 0; 7 / 10; 3 / 10] = Ok v /\ List.length v = 11%nat) /\
  (exists v, joint_difference eps mixed [0; 0; 0; 0; 1; 0] [1 / 10; 1; 0; 0; 0; - (2 / 10)] = Ok v /\ List.length v = 5%nat).
Proof. split; eexists; split; reflexivity. Qed.
Example conf_integrate : exists q, integrate mixed [0; 0; 0; 0; 1; 0] [1 / 10] (1 / 10) = Ok q /\ List.length q = 6%nat.
Proof. eexists. split; reflexivity. Qed.
Example conf_skew x y z : skew_symmetric (mkV x y z) = [[0; - z; y]; [z; 0; - x]; [- y; x; 0]].
Proof. reflexivity. Qed.
Example conf_attitude : attitude_jacobian (mkQ (1 / 2) (1 / 2) (1 / 2) (1 / 2)) =
  [[- (1 / 2); - (1 / 2); - (1 / 2)]; [1 / 2; - (1 / 2); 1 / 2]; [1 / 2; 1 / 2; - (1 / 2)]; [- (1 / 2); 1 / 2; 1 / 2]].
Proof. numbers. Qed.
Example conf_dq2v x y z : jac_dq2v (chain [JFree; JBall; JHinge]) [x; y; z; 1; 0; 0; 0; 1; 0; 0; 0; 1 / 2] =
  Ok [[1; 0; 0; 0; 0; 0; 0; 0; 0; 0]; [0; 1; 0; 0; 0; 0; 0; 0; 0; 0]; [0; 0; 1; 0; 0; 0; 0; 0; 0; 0];
      [0; 0; 0; 0; 0; 0; 0; 0; 0; 0]; [0; 0; 0; 1; 0; 0; 0; 0; 0; 0]; [0; 0; 0; 0; 1; 0; 0; 0; 0; 0]; [0; 0; 0; 0; 0; 1; 0; 0; 0; 0];
      [0; 0; 0; 0; 0; 0; 0; 0; 0; 0]; [0; 0; 0; 0; 0; 0; 1; 0; 0; 0]; [0; 0; 0; 0; 0; 0; 0; 1; 0; 0]; [0; 0; 0; 0; 0; 0; 0; 0; 1; 0];
      [0; 0; 0; 0; 0; 0; 0; 0; 0; 1]].
Proof. numbers. Qed.

(** ** tests/unit_tests/configuration/test_collision_utils.py, test_collision_computation.py *)
Example coll_sorted : sorted_pair 5 3 = (3, 5)%Z /\ sorted_pair 2 2 = (2, 2)%Z. Proof. split; reflexivity. Qed.
Definition two_geoms (ty da pr cd : list Z) : mjmodel :=
  let m := arm2 in
  {| m_nq := m_nq m; m_nv := m_nv m; m_njnt := m_njnt m; m_nbody := m_nbody m; m_neq := m_neq m;
     m_jnt_type := m_jnt_type m; m_jnt_qposadr := m_jnt_qposadr m; m_jnt_dofadr := m_jnt_dofadr m;
     m_jnt_range := m_jnt_range m; m_body_weldid := m_body_weldid m; m_body_parentid := m_body_parentid m;
     m_body_rootid := m_body_rootid m; m_body_geomadr := m_body_geomadr m; m_body_geomnum := m_body_geomnum m;
     m_body_mass := m_body_mass m; m_geom_bodyid := m_geom_bodyid m; m_geom_contype := m_geom_contype m;
     m_geom_conaffinity := m_geom_conaffinity m; m_geom_type := ty; m_geom_dataid := da;
     m_geom_priority := pr; m_geom_condim := cd; m_site_bodyid := m_site_bodyid m;
     m_dof_bodyid := m_dof_bodyid m; m_eq_type := m_eq_type m; m_names := m_names m |}.
Example coll_groups : geom_groups (two_geoms [5; 3] [10; 11] [0; 0] [7; 5])%Z [(0, 1)]%Z = Ok [(mkK (3, 5) (11, 10) 7, [(1, 0)])]%Z /\
  exists g, geom_groups (two_geoms [6; 6] [0; 1] [2; 1] [4; 3])%Z [(0, 1)]%Z = Ok [g] /\ k_condim (fst g) = 4%Z.
Proof. split; [reflexivity|]. eexists. split; reflexivity. Qed.
Definition balls : mjmodel := two_geoms [2; 2]%Z [-1; -1]%Z [0; 0]%Z [3; 3]%Z.
Example coll_empty T d : compute_collision_pairs T balls d [] = Ok no_contacts. Proof. reflexivity. Qed.
Example coll_invalid T d : compute_collision_pairs T balls d [(0, 5)]%Z = Err IndexError. Proof. reflexivity. Qed.
Example coll_hfield T d : get_distance T (two_geoms [1; 2] [0; 1] [0; 0] [3; 3])%Z d [(0, 1)]%Z = Err NotImplementedError. Proof. reflexivity. Qed.
Example coll_distance d p1 p2 f1 f2 : exists ps fs,
  get_distance (fun _ => Some (2%nat, fun _ _ _ _ => [mkCt 3 p1 f1; mkCt 4 p2 f2])) balls d [(0, 1)]%Z = Ok ([3], ps, fs).
Proof. assert (E : [3] = [Rmin 3 4]) by (unfold Rmin; destruct (Rle_dec 3 4); [reflexivity|lra]). rewrite E. do 2 eexists. reflexivity. Qed.
