(** A program with a component of every kind. *)
From Verif Require Import Base Lin LinFacts Mjx Typing Component Problem SpecComponent SpecJoint SpecHistory Rot Conf FrameJac Collide JaxComponents LocalIK Witness.
From Verif Require Import SpecCollision SpecTree SpecShape SpecContact SpecSelf SpecValue SpecQP SpecProblem SpecFit ConfCases CompThms2 BindCases RotFacts SpecMotion SpecLoop ValueCases CollideCases QPCases MotionCases FitFacts3.
Open Scope R_scope.

(** Four bodies on slides, geoms of two contact dimensions, one connect equality. *)
Definition rig : mjmodel := with_eq mixed_dims [EqConnect].
Definition rig_data (m : mjmodel) : mjdata :=
  let d := sliding m in
  {| d_qpos := d_qpos d; d_xpos := d_xpos d; d_xmat := d_xmat d; d_xquat := d_xquat d; d_xipos := d_xipos d;
     d_geom_xpos := d_geom_xpos d; d_geom_xmat := d_geom_xmat d; d_site_xpos := d_site_xpos d; d_site_xmat := d_site_xmat d;
     d_subtree_com := d_subtree_com d; d_cdof := d_cdof d; d_efc_pos := [5; 1; 2; 3]; d_efc_is_equality := [false; true; true; true];
     d_efc_J := [[9; 9; 9; 9]; [1; 0; 0; 0]; [0; 1; 0; 0]; [1; 1; 0; 0]] |}.
Definition rig_lib : lib := mkL (1 / 1000) rig_data (fun _ d => d) (fun _ d => d) (fun _ d => d)
  (fun f x => match f x with Ok y => Ok (repeat (repeat 1 (List.length x)) (List.length y)) | Err e => Err e end) one_contact.
Lemma rig_sound : sound_model rig.
Proof.
  destruct (chain_sound [JSlide; JSlide; JSlide; JSlide]) as (A & B & C & D & E & _ & F). split; [exact A|]. split; [exact B|]. split; [|split; [exact D|split; [exact E|split; [reflexivity|exact F]]]].
  unfold wf_geoms. cbn. auto.
Qed.
Lemma rig_wf q : List.length q = 4%nat -> wf_data rig (update rig_lib rig q).
Proof. intros H. unfold wf_data, update, kin, rig_lib, set_qpos. cbn. repeat split; try exact H; repeat constructor. Qed.
Lemma rig_lib_sound : sound_lib rig_lib rig.
Proof.
  split; [exact rig_wf|]. intros f x k H. destruct (H x eq_refl) as (y & E & <-). cbn. rewrite E. eexists. split; [reflexivity|]. split; [apply repeat_length|]. apply Forall_forall. intros r Hr. apply repeat_spec in Hr. subst r. apply repeat_length.
Qed.
Definition none : comp := mkC (mkA "" None (tscalar 1) (fun x => x) (-1) None [] (XConstraint true true None CModelEq)) true None.
Definition jtask_comp : comp := mkC (mkA "posture" None (tscalar 2) (fun x => x) (-1) None [] (XTask (tscalar 1) 0%R (TJoint (mkJT (Some [1; 0; 0; 1]%Z) None None)))) true None.
Definition jbar_comp : comp := unwrap (new_joint_barrier "limits" (tscalar 1) None 0 None None None) none.
Definition eq_comp : comp := unwrap (new_model_equality "loop" (tscalar 1) true None) none.
Definition user_fun : mjdata -> list R := fun d => if Nat.eqb (List.length (d_qpos d)) 4 then d_qpos d else [0; 0; 0; 0].
Lemma user_length d : List.length (user_fun d) = 4%nat.
Proof. unfold user_fun. destruct (Nat.eqb_spec (List.length (d_qpos d)) 4); [assumption|reflexivity]. Qed.
Definition user_comp : comp := unwrap (new_custom_barrier "user" (tscalar 1) None 1 None 4 user_fun) none.
Definition rig_prog : list wop :=
  [WNewProblem rig (tscalar (-1)) (tscalar 1);
   WNewComp (pos_comp None); WNewComp com_comp; WNewComp (frame_comp None); WNewComp jtask_comp; WNewComp jbar_comp;
   WNewComp (wall_of "max" None (Some (tscalar 2)) (Some (mvec [1; 0; 1]%Z))); WNewComp (guard_of b134 1); WNewComp eq_comp; WNewComp user_comp;
   WCop 0 (OpTargetPos (tvec [1; 2; 3])); WCop 4 (OpGain (tscalar 3));
   WAdd 0 0; WAdd 0 1; WAdd 0 2; WAdd 0 3; WAdd 0 4; WAdd 0 5; WAdd 0 6; WAdd 0 7; WAdd 0 8; WCompile 0].
Definition rig_pd : jdata := Eval vm_compute in match fst (step (WCompile 0) (state rig_prog)) with Ok (OData d) => d | _ => mkJD rig [] [] [] end.
Lemma rig_compiles : compiled_by rig_prog 0 rig_pd.
Proof. vm_compute. reflexivity. Qed.
Lemma rig_made : Forall legal rig_prog.
Proof.
  repeat (constructor; [exact I||idtac|]); try exact I; cbn.
  - eapply made_position_task. exact (pos_comp_new None).
  - eapply (made_com_task "com" (tscalar 1) (tscalar 2) None 0 (Some (mvec [1; 1; 0]%Z))). unfold new_com_task, init_task; cbn; rewrite not_neg0; reflexivity.
  - eapply made_frame_task. exact (frame_comp_new None).
  - eapply (made_joint_task "posture" (tscalar 1) (tscalar 2) None 0 (Some [1; 0; 0; 1]%Z)). unfold new_joint_task, init_task; cbn; rewrite not_neg0; reflexivity.
  - eapply (made_joint_barrier "limits" (tscalar 1) None 0 None None None). reflexivity.
  - eapply (made_position_barrier "wall" (tscalar 1) "tip" OBody None (Some (tscalar 2)) "max" None 0 (Some (mvec [1; 0; 1]%Z))). reflexivity.
  - eapply (made_self_collision "self" (tscalar 1) None 0 (1/4) b134 [] 1). reflexivity.
  - eapply (made_model_equality "loop" (tscalar 1) true None). reflexivity.
  - eapply (made_custom_barrier "user" (tscalar 1) None 1 None 4). reflexivity.
  - constructor.
Qed.
Lemma rig_tidy : tidy rig rig_prog.
Proof.
  split; [exact rig_sound|]. split; [exact rig_made|]. split; [repeat (constructor; [first [exact I|reflexivity]|]); constructor|].
  split; [repeat (constructor; [first [exact I|split; reflexivity]|]); constructor|].
  split; [repeat (constructor; [first [exact I|reflexivity|split; [reflexivity|first [exact I|reflexivity]]]|]); constructor|].
  intros k o Hk Hb. do 22 (destruct k as [|k]; [injection Hk as <-; first [contradiction | left; eexists; vm_compute; reflexivity]|]). destruct k; discriminate.
Qed.
Lemma rig_accepted q : List.length q = 4%nat -> Forall (accepted rig_lib (update rig_lib rig q)) (comps_of rig_pd).
Proof.
  intros Hq. unfold comps_of, rig_pd; cbn [jd_comps map snd]. repeat (apply Forall_cons; [unfold accepted; cbn [j_ext]|]).
  - split; [exact I|]. exists [1; 2; 3]. reflexivity.
  - exists [0; 0]. reflexivity.
  - split; [exact I|]. exists [1; 0; 0; 0; 0; 0; 0]. split; reflexivity.
  - exists [0; 0]. reflexivity.
  - split; match goal with |- vec_of_length _ (mkT _ ?l) => exists l; split; reflexivity end.
  - split; [exact I|]. split; [exists [0; 0]|exists [2; 2]]; reflexivity.
  - split; [discriminate|]. split; [apply one_contact_ok|]. eexists. split; [apply slides_contacts|]. cbn. lia.
  - reflexivity.
  - intros d _. change (4 = Z.of_nat (List.length (user_fun d)))%Z. now rewrite user_length.
  - constructor.
Qed.

(** One hinge moving towards its limit, as in [lim1_case], with a sound library. *)
Definition ones_jac (f : list R -> res (list R)) (x : list R) : res mat := match f x with Ok y => Ok (repeat (repeat 1 (List.length x)) (List.length y)) | Err e => Err e end.
Definition even_lib : lib := mkL (1 / 1000) (fun m => straight m []) (fun _ d => d) (fun _ d => d) (fun _ d => d) ones_jac (fun _ => None).
Lemma even_wf m q : List.length q = m_nq m -> wf_data m (update even_lib m q).
Proof. exact (straight_data m q). Qed.
Lemma even_sound m : sound_lib even_lib m.
Proof.
  split; [exact (straight_data m)|]. intros f x k H. destruct (H x eq_refl) as (y & E & <-). cbn. unfold ones_jac. rewrite E. eexists. split; [reflexivity|]. now apply repeat_mat, repeat_length.
Qed.
Lemma lim1_tidy : tidy one lim1_prog.
Proof.
  split; [apply chain_sound|]. split; [repeat constructor; exact bar1_made|]. split; [repeat constructor|]. split; [repeat constructor|]. split; [repeat constructor|].
  intros k o Hk Hb. do 3 (destruct k as [|k]; [injection Hk as <-; first [contradiction | left; eexists; vm_compute; reflexivity]|]). destruct k; discriminate.
Qed.
Lemma lim1_even : keeps_scalars even_lib one /\ safe_loop even_lib one lim1_pd (1 / 2) lim1_q lim1_v /\
  forall x, List.length x = 1%nat -> wf_data one (update even_lib one x) /\ Forall (accepted even_lib (update even_lib one x)) (comps_of lim1_pd).
Proof.
  destruct lim1_case as (_ & _ & _ & _ & _ & _ & _ & _ & _ & (A & B) & _). split; [intros q Hq; split; [exact Hq|reflexivity]|]. split.
  - split; [exact A|]. intros k. destruct (B k) as (Q & E & B'). exists Q. split; [|exact B']. rewrite <- E. reflexivity.
  - intros x Hx. split; [now apply even_wf|]. constructor; [|constructor]. split; [exists [-1]|exists [1]]; split; reflexivity.
Qed.
