(** Concrete programs for PropsSetup. *)
From Verif Require Import Base Lin LinFacts Mjx Typing Component Problem SpecComponent SpecJoint SpecHistory SpecTyping SpecCollision SpecTree SpecShape SpecContact SpecValue SpecProblem SpecQP SpecFit SpecTrace SpecSetup.
From Verif Require Import JaxComponents LocalIK Witness CompThms2 BindThms FitFacts FitFacts3 FitCases SetupFacts2 SetupFacts3 SetupFacts4 SetupFacts5 TraceFacts.
Open Scope nat_scope.
#[local] Arguments update_model : simpl never.

(** The components of examples/local_ik.py with their numbers, for a body [s]. *)
Definition ee_task (s : string) : comp := new_comp (mkA "ee_task" None (tscalar 20%R) (fun x => x) 6 None [] (XTask (tscalar 1%R) 0%R (TFrame (mkO s OBody (-1)) (tvec se3_identity)))).
Lemma ee_task_new s : new_frame_task "ee_task" (tscalar 1%R) (tscalar 20%R) s OBody None 0%R None = Ok (ee_task s).
Proof. unfold new_frame_task, init_task. cbn. now rewrite not_neg0. Qed.
Definition ee_barrier (s : string) : comp := unwrap (new_position_barrier "ee_barrier" (tscalar 100%R) s OBody None (Some (tscalar (3/10)%R)) "max" None (1/100)%R (Some (mvec [1; 0; 0]%Z))) none.
Lemma ee_barrier_new s : new_position_barrier "ee_barrier" (tscalar 100%R) s OBody None (Some (tscalar (3/10)%R)) "max" None (1/100)%R (Some (mvec [1; 0; 0]%Z)) = Ok (ee_barrier s).
Proof. reflexivity. Qed.
Definition jnt_range : comp := unwrap (new_joint_barrier "jnt_range" (tscalar 10%R) None 0%R None None None) none.
Lemma jnt_range_new : new_joint_barrier "jnt_range" (tscalar 10%R) None 0%R None None None = Ok jnt_range.
Proof. reflexivity. Qed.
Definition self_barrier_ : comp := unwrap (new_self_collision "self_collision_barrier" (tscalar 1%R) None 0%R (1/100)%R [] [] (-1)) none.
Lemma self_barrier_new : new_self_collision "self_collision_barrier" (tscalar 1%R) None 0%R (1/100)%R [] [] (-1) = Ok self_barrier_.
Proof. reflexivity. Qed.
(** One turn of a control loop: a target pose, a misshapen one, a velocity limit of the wrong length, a compilation. *)
Definition turn : list wop :=
  [WCop 0 (OpTargetFrame (FArr (tvec [1; 2; 3; 1; 0; 0; 0]%R))); WCop 0 (OpTargetFrame (FArr (tvec [1; 2; 3; 1; 0; 0]%R))); WVmax 0 (tvec [1; 2]%R); WCompile 0].
Lemma turn_steers : Forall steering turn /\ Forall proper turn /\ Forall plain_call turn.
Proof.
  split; [|split].
  - repeat (constructor; [split; [first [exact I|reflexivity|now constructor]|exact I]|]); constructor.
  - repeat (constructor; [exact I|]); constructor.
  - repeat (constructor; [first [exact I|eexists; reflexivity]|]); constructor.
Qed.
Lemma turn_partly : fst (step (nth 1 turn (WCompile 0)) (state (setup rig (tscalar (-100)%R) (tscalar 100%R) [ee_task "tip"; jnt_range]))) = Err ValueError.
Proof. vm_compute. reflexivity. Qed.
Lemma rig_tip : has_object rig OBody "tip" 4.
Proof. right. now left. Qed.
Lemma rig_scalar : n_scalar rig = 4.
Proof. reflexivity. Qed.

Lemma local_ik_case : sound_model rig /\ has_object rig OBody "tip" 4 /\ Forall steering turn /\ n_scalar rig = 4 /\
  new_frame_task "ee_task" (tscalar 1%R) (tscalar 20%R) "tip" OBody None 0%R None = Ok (ee_task "tip") /\
  new_position_barrier "ee_barrier" (tscalar 100%R) "tip" OBody None (Some (tscalar (3/10)%R)) "max" None (1/100)%R (Some (mvec [1; 0; 0]%Z)) = Ok (ee_barrier "tip") /\
  new_joint_barrier "jnt_range" (tscalar 10%R) None 0%R None None None = Ok jnt_range /\
  new_self_collision "self_collision_barrier" (tscalar 1%R) None 0%R (1/100)%R [] [] (-1) = Ok self_barrier_ /\
  exists pd, compiled_by (setup rig (tscalar (-100)%R) (tscalar 100%R) [ee_task "tip"; ee_barrier "tip"; jnt_range; self_barrier_] ++ turn) 0 pd /\ map j_dim (comps_of pd) = [6; 1; 8; 3]%Z.
Proof.
  split; [exact rig_sound|]. split; [exact rig_tip|]. split; [apply turn_steers|]. split; [reflexivity|]. split; [apply ee_task_new|]. split; [reflexivity|]. split; [reflexivity|]. split; [reflexivity|].
  eexists. split; [vm_compute; reflexivity|reflexivity].
Qed.
Lemma suits_case :
  suits rig (ee_task "tip") 6 /\ usable rig (ee_task "tip") 6 /\ (forall d, ~ suits rig (ee_task "nose") d) /\
  (forall d, ~ suits rig (history [OpGain (tvec [1; 2]%R)] (ee_task "tip")) d) /\ (forall d, ~ usable rig (ee_task "nose") d) /\
  constructed (ee_task "tip") /\ wf_arrays (c_at (ee_task "tip")) /\ bodies_known rig (ee_task "tip").
Proof.
  destruct (frame_suits _ _ _ _ _ _ rig 4 (ee_task_new "tip") rig_tip) as (F1 & F2 & F3 & _).
  assert (N : forall d, ~ suits rig (ee_task "nose") d). { intros d (_ & _ & _ & i & [X|[X|[]]]); discriminate. }
  split; [exact F3|]. split. { apply suits_usable; [now apply made_reachable|now apply TraceFacts.arrays_core|exact rig_sound|exact F3]. }
  split; [exact N|]. split. { intros d ([X|X] & _ & D & _); [discriminate|]. cbn in X, D. injection X as <-. discriminate. }
  split. { intros d (X & _). vm_compute in X. discriminate. }
  split; [exact F1|]. split; [exact F2|exact I].
Qed.
Lemma setup_case : sound_model rig /\ Forall constructed [ee_task "tip"; jnt_range] /\ Forall (fun c => wf_arrays (c_at c)) [ee_task "tip"; jnt_range] /\
  Forall (plain rig) [ee_task "tip"; jnt_range] /\ NoDup (map (fun c => a_name (c_at c)) [ee_task "tip"; jnt_range]) /\ Forall (fun c => exists d, suits rig c d) [ee_task "tip"; jnt_range] /\
  limit_fits rig (tscalar (-100)%R) /\ runs (setup rig (tscalar (-100)%R) (tscalar 100%R) [ee_task "tip"; jnt_range]) empty_world /\
  ~ runs (setup rig (tscalar (-100)%R) (tscalar 100%R) [ee_task "tip"; ee_task "tip"]) empty_world /\
  ~ runs (setup rig (tscalar (-100)%R) (tvec [1; 2; 3]%R) [ee_task "tip"]) empty_world /\
  Forall steering turn /\ Forall proper turn /\ Forall plain_call turn.
Proof.
  destruct (frame_suits _ _ _ _ _ _ rig 4 (ee_task_new "tip") rig_tip) as (F1 & F2 & F3 & F4 & F5). destruct (limits_suits _ _ _ _ _ rig jnt_range_new) as (J1 & J2 & J3 & J4 & J5).
  split; [exact rig_sound|]. split; [repeat constructor; assumption|]. split; [repeat (constructor; [assumption|]); constructor|]. split; [repeat (constructor; [assumption|]); constructor|].
  split. { cbn. repeat constructor; cbn; intuition discriminate. } split; [repeat (constructor; [eexists; eassumption|]); constructor|]. split; [now left|].
  split. { intros k o Hk. do 5 (destruct k as [|k]; [injection Hk as <-; eexists; vm_compute; reflexivity|]). destruct k; discriminate. }
  split. { intros H. destruct (H 4 _ eq_refl) as [r Hr]. vm_compute in Hr. discriminate. }
  split. { intros H. destruct (H 0 _ eq_refl) as [r Hr]. vm_compute in Hr. discriminate. }
  exact turn_steers.
Qed.
Lemma settings_case : let prog := setup rig (tscalar (-100)%R) (tscalar 100%R) [ee_task "tip"; jnt_range] in
  Forall tuning_step [WCop 0 (OpGain (tvec [1; 2]%R))] /\ Forall tuning_step [WCop 0 (OpCost (tvec [1; 2; 3; 4; 5; 6]%R))] /\
  fst (step (WCompile 0) (state (prog ++ [WCop 0 (OpGain (tvec [1; 2]%R))]))) = Err ValueError /\
  exists pd, compiled_by (prog ++ [WCop 0 (OpCost (tvec [1; 2; 3; 4; 5; 6]%R))]) 0 pd.
Proof.
  cbv zeta. split; [repeat constructor|]. split; [repeat constructor|]. split; [vm_compute; reflexivity|]. eexists. vm_compute. reflexivity.
Qed.
