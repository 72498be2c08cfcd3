(** Concrete robots for the motion theorems. *)
From Verif Require Import Base Lin LinFacts Mjx Typing Component Problem SpecComponent SpecJoint SpecHistory SpecProblem Witness CompThms2 Rot Conf FrameJac Collide JaxComponents LocalIK SpecQP QPFacts QPThms QPThms2 QPThms3 QPThms4 QPCases SpecMotion MotionFacts MotionFacts2 SpecLoop LoopFacts.
Open Scope R_scope.

(** A simulator that stores the configuration and computes nothing else. *)
Definition plain_lib : lib := mkL 0 (fun m => dat (vzero (m_nq m)) [] [] []) (fun _ d => d) (fun _ d => d) (fun _ d => d) (fun _ _ => Err TypeError) (fun _ => None).
Lemma plain_keeps m : keeps_scalars plain_lib m.
Proof. intros q Hq. split; [exact Hq|]. reflexivity. Qed.

(** Floating base, hinge, ball, slide; the task controls the slide joint only. *)
Definition slide_mask : option (list Z) := Some [0; 1]%Z.
Definition slide_task : comp := mkC (mkA "slide" None (tscalar (1 / 2)) (fun x => x) (-1) None []
  (XTask (tscalar 1) 0 (TJoint (mkJT slide_mask None None)))) true None.
Lemma slide_made : new_joint_task "slide" (tscalar 1) (tscalar (1 / 2)) None 0 slide_mask = Ok slide_task.
Proof. unfold new_joint_task, init_task. cbn. rewrite not_neg0. reflexivity. Qed.
Definition slide_ops : list cop := [OpModel floating; OpTargetQ (tvec [2])].
Definition get_j (r : res jaxc) (d : jaxc) : jaxc := match r with Ok j => j | Err _ => d end.
Definition dummy_j : jaxc := mkJ 0 arm2 [] (fun x => x) [] (JBarrier 0 (JBCustom (fun _ => []))).
Definition slide_j : jaxc := Eval vm_compute in get_j (fst (jax_component (history slide_ops slide_task))) dummy_j.
Lemma slide_is : joint_task slide_mask slide_j /\ has_target slide_j [2] /\ j_model slide_j = floating /\ selected floating slide_mask = [3%nat] /\
  m_nq floating = 13%nat /\ m_nv floating = 11%nat /\ j_gain slide_j = [1 / 2] /\ (forall x, j_gain_fn slide_j x = x).
Proof.
  split; [|split; [do 3 eexists; reflexivity|repeat split; reflexivity]].
  exists "slide"%string, (tscalar 1), (tscalar (1 / 2)), None, 0, slide_task, slide_ops. split; [exact slide_made|].
  split; [|split; [|vm_compute; reflexivity]].
  - repeat constructor.
  - cbn -[update_model]. split; [vm_compute; reflexivity|repeat split].
Qed.

(** Joint limits on the same robot, on both scalar joints (ranges of [chain]). *)
Definition float_bar : comp := mkC (mkA "limits" None (tscalar 1) (fun x => x) (-1) None []
  (XBarrier 0 (BJoint (mkJB None None None None)))) true None.
Definition bar_j : jaxc := Eval vm_compute in get_j (fst (jax_component (history [OpModel floating] float_bar))) dummy_j.
Lemma bar_is : joint_barrier None bar_j /\ has_limits bar_j [- INR 2; - INR 4] [INR 2; INR 4] /\ j_model bar_j = floating /\ selected floating None = [1%nat; 3%nat].
Proof.
  split; [|split; [do 2 eexists; vm_compute; reflexivity|repeat split; reflexivity]].
  exists "limits"%string, (tscalar 1), None, 0, None, None, float_bar, [OpModel floating]. split; [reflexivity|].
  split; [|split; [|vm_compute; reflexivity]].
  - repeat constructor.
  - cbn -[update_model]. split; [vm_compute; reflexivity|repeat split].
Qed.

(** One hinge with range [-1, 1], moving towards its upper limit as fast as the
    barrier of gain 1 allows, step 1/2: x_k = 1 - (1/2)^k. *)
Definition bar1 : comp := mkC (mkA "limits" None (tscalar 1) (fun x => x) (-1) None []
  (XBarrier 0 (BJoint (mkJB None None None None)))) true None.
Lemma bar1_made : constructed bar1.
Proof. eapply made_joint_barrier with (name := "limits"%string) (gain := tscalar 1) (gf := None) (sdg := 0) (lo := None) (hi := None) (mk := None). reflexivity. Qed.
Definition lim1_prog : list wop := [WNewProblem one (tscalar (-1)) (tscalar 1); WNewComp bar1; WAdd 0 0].
Definition lim1_pd : jdata := Eval vm_compute in result (fst (step (WCompile 0) (run lim1_prog empty_world))).
Definition lim1_j : jaxc := Eval vm_compute in get_j (fst (jax_component (history [OpModel one] bar1))) dummy_j.
Definition lim1_q (k : nat) : vec := [1 - (1 / 2) ^ k].
Definition lim1_v (k : nat) : vec := [(1 / 2) ^ k].
Lemma lim1_case : compiled_by lim1_prog 0 lim1_pd /\ Forall legal lim1_prog /\ In lim1_j (comps_of lim1_pd) /\ joint_barrier None lim1_j /\
  has_limits lim1_j [-1] [1] /\ (forall x, j_gain_fn lim1_j x = x) /\ j_gain lim1_j = [1; 1] /\ keeps_scalars plain_lib one /\
  (forall k, Forall (well_shaped plain_lib 1 (update plain_lib one (lim1_q k))) (comps_of lim1_pd)) /\
  safe_loop plain_lib one lim1_pd (1 / 2) lim1_q lim1_v /\ within [-1] [1] (sel_pos one None (lim1_q 0)).
Proof.
  split; [vm_compute; reflexivity|]. split; [repeat constructor; exact bar1_made|]. split; [left; reflexivity|].
  split.
  { exists "limits"%string, (tscalar 1), None, 0, None, None, bar1, [OpModel one]. split; [reflexivity|].
    split; [repeat constructor|split; [split; [vm_compute; reflexivity|exact I]|vm_compute; reflexivity]]. }
  split; [do 2 eexists; vm_compute; reflexivity|]. split; [reflexivity|]. split; [reflexivity|]. split; [apply plain_keeps|].
  assert (B : forall k, 0 < (1 / 2) ^ k <= 1).
  { intros k. split; [apply pow_lt; lra|]. pose proof (pow_incr (1 / 2) 1 k) as P. rewrite pow1 in P. apply P. lra. }
  assert (F : forall k, Forall (fits plain_lib 1 (update plain_lib one (lim1_q k))) (comps_of lim1_pd)).
  { intros k. assert (M : forall r c A, is_matb r c A = true -> is_mat r c A) by (intros; now apply is_matb_spec).
    constructor; [|constructor]. exists ([[1]] ++ mneg [[1]]), [1 - (1 / 2) ^ k - -1; 1 - (1 - (1 / 2) ^ k)].
    split; [vm_compute; reflexivity|]. split; [reflexivity|]. split; [apply M; reflexivity|]. split; reflexivity. }
  assert (S : forall k, Forall (well_shaped plain_lib 1 (update plain_lib one (lim1_q k))) (comps_of lim1_pd)) by (intros k; eapply Forall_impl; [|apply F]; intros j; apply fits_shaped).
  split; [exact S|]. split.
  - split; [reflexivity|]. intros k.
    assert (HQ : exists Q, assemble plain_lib one lim1_pd (update plain_lib one (lim1_q k)) = Ok Q).
    { apply assemble_finite; [reflexivity|apply F|]. intros j J Hj Hb HJ. destruct Hj as [<-|[]].
      assert (E : Ok J = Ok ([[1]] ++ mneg [[1]])) by (rewrite <- HJ; vm_compute; reflexivity). injection E as ->.
      unfold frob2, dot, vmul, vmap2, mneg, vneg. cbn. lra. }
    destruct HQ as [Q HQ]. exists Q. split; [exact HQ|]. split; [reflexivity|]. split.
    + apply (ineq_iff plain_lib one lim1_pd _ Q eq_refl HQ (S k)); [reflexivity|reflexivity|reflexivity|].
      specialize (B k). cbn [comps_of lim1_pd jd_comps jd_vmin jd_vmax map snd filter is_barrier j_ext]. split; [|split].
      * unfold vle, lim1_v. cbn. constructor; [lra|constructor].
      * unfold vle, lim1_v. cbn. constructor; [lra|constructor].
      * constructor; [|constructor]. intros J e HJ He.
        assert (E : Ok J = Ok ([[1]] ++ mneg [[1]])) by (rewrite <- HJ; vm_compute; reflexivity). injection E as ->.
        assert (E : Ok e = Ok [1 - (1 / 2) ^ k - -1; 1 - (1 - (1 / 2) ^ k)]) by (rewrite <- He; reflexivity). injection E as ->.
        unfold gained, vle, lim1_v, mv, dot, mneg, vneg, vmul, vmap2. cbn. repeat (constructor; [lra|]). constructor.
    + unfold lim1_q, lim1_v, integrate. cbn. f_equal. f_equal. lra.
  - split; unfold vle; cbn; (constructor; [lra|constructor]).
Qed.
