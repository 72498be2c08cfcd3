(** Concrete cases for PropsBinding. *)
From Verif Require Import Base Lin LinFacts Mjx Typing Component SpecComponent SpecJoint SpecHistory SpecTyping SpecCollision Witness.
From Verif Require Import ComponentFacts ComponentFacts2 BindFacts BindFacts2 BindFacts3 CompThms CompThms2 BindThms BindThms2.
From Coq Require Import Ascii.
Open Scope nat_scope.

Definition joint_of (fm : option (list Z)) : comp :=
  mkC (mkA "hold" None (tscalar 1) (fun x => x) (-1) None [] (XTask (tscalar 1) 0%R (TJoint (mkJT fm None None)))) true None.
Lemma joint_of_new fm : new_joint_task "hold" (tscalar 1) (tscalar 1) None 0 fm = Ok (joint_of fm).
Proof. unfold new_joint_task, init_task; cbn; rewrite not_neg0; reflexivity. Qed.
Lemma joint_case : exists c j, new_joint_task "hold" (tscalar 1) (tscalar 1) None 0 (Some [0; 1]%Z) = Ok c /\
  Forall sound_op [OpModel floating] /\ binds_ok [OpModel floating] c /\ compiles (history [OpModel floating] c) j /\
  j_mask_idxs j = [10]%Z.
Proof.
  exists (joint_of (Some [0; 1]%Z)). eexists. split; [apply joint_of_new|]. split; [repeat constructor|].
  split; [split; [vm_compute; reflexivity|exact I]|]. split; [vm_compute; reflexivity|reflexivity].
Qed.
Lemma mask_case : wf_joints arm2 /\ user_mask masked_barrier (Some [1; 0]%Z) /\ mask_fits arm2 (Some [1; 0]%Z) /\ ~ mask_fits arm4 (Some [1; 0]%Z) /\
  fst (update_model arm4 masked_barrier) = Err ValueError.
Proof.
  split; [apply chain_joints|]. split; [right; do 2 eexists; split; reflexivity|]. split; [reflexivity|]. split; [discriminate|reflexivity].
Qed.
Lemma limit_setters t c s j n : a_ext (c_at c) = XBarrier s (BJoint j) -> a_dim (c_at c) = (2 * Z.of_nat n)%Z ->
  (last_dim t = Ok n ->
     fst (update_q_min t c) = Ok tt /\ q_limits (snd (update_q_min t c)) (Some t) (jb_qmax j) /\
     fst (update_q_max t c) = Ok tt /\ q_limits (snd (update_q_max t c)) (jb_qmin j) (Some t)) /\
  (ndim t <> 0 -> last_dim t <> Ok n -> update_q_min t c = (Err ValueError, c) /\ update_q_max t c = (Err ValueError, c)).
Proof.
  intros He Hd. destruct (set_q_limits t c s j n He Hd) as [A B]. split; [|exact B]. intros L. destruct (A L) as [-> ->].
  split; [reflexivity|]. split; [do 2 eexists; split; [reflexivity|split; reflexivity]|]. split; [reflexivity|].
  do 2 eexists; split; [reflexivity|split; reflexivity].
Qed.
Lemma default_case : exists c, new_joint_barrier "limits" (tscalar 1) None 0 None None None = Ok c /\
  wf_joints floating /\ selected floating None = [1; 3] /\ List.length (selected floating None) = n_scalar floating.
Proof. eexists. split; [reflexivity|]. split; [apply chain_joints|]. split; reflexivity. Qed.
Lemma target_case : exists c j, new_joint_task "hold" (tscalar 1) (tscalar 1) None 0 None = Ok c /\
  let os := [OpTargetQ (tvec [1; 2]%R); OpModel arm2; OpTargetQ (tvec [3; 4]%R)] in
  Forall sound_op os /\ binds_ok os c /\ compiles (history os c) j.
Proof.
  exists (joint_of None). eexists. split; [apply joint_of_new|]. cbv zeta. split; [repeat constructor|].
  split; [split; [exact I|split; [vm_compute; reflexivity|split; exact I]]|]. vm_compute; reflexivity.
Qed.
Lemma object_case : wf_names arm2 /\ object_of (c_at demo_task) = Some (mkO "tip" OBody (-1)) /\ has_object arm2 OBody "tip" 2 /\
  (forall i, ~ has_object (with_names arm2 []) OBody "tip" i).
Proof.
  split; [apply chain_names|]. split; [reflexivity|]. split; [right; now left|]. intros i [].
Qed.
Definition wall_of lts lo hi mk : comp := unwrap (new_position_barrier "wall" (tscalar 1) "tip" OBody lo hi lts None 0 mk) masked_barrier.
Lemma wall_case : exists c, new_position_barrier "wall" (tscalar 1) "tip" OBody None None "max" None 0 None = Ok c /\
  object_of (c_at (history [OpModel arm2] c)) = Some (mkO "tip" OBody 2) /\ reachable (history [OpModel arm2] c) /\
  (exists j, compiles (history [OpModel arm2] c) j) /\ wf_names (with_names arm2 []).
Proof.
  assert (Hn : new_position_barrier "wall" (tscalar 1) "tip" OBody None None "max" None 0 None = Ok (wall_of "max" None None None)) by reflexivity.
  exists (wall_of "max" None None None). split; [exact Hn|]. split; [reflexivity|].
  split; [exists (wall_of "max" None None None), [OpModel arm2]; split; [eapply made_position_barrier; exact Hn|reflexivity]|].
  split; [eexists; vm_compute; reflexivity|]. split; cbn; tauto.
Qed.
Lemma limits_case : exists c, new_position_barrier "wall" (tscalar 1) "tip" OBody None (Some (tscalar 2)) "max" None 0 (Some (mvec [1; 0; 1]%Z)) = Ok c /\
  n_axes (Some (mvec [1; 0; 1]%Z)) = 2 /\ p_limits c (tvec [0; 0]%R) (tvec [2; 2]%R) /\
  snd (update_p_min (tscalar 1) c) = c /\ p_limits (snd (update_p_max (tvec [5; 6]%R) c)) (tvec [0; 0]%R) (tvec [5; 6]%R).
Proof.
  eexists. split; [reflexivity|]. split; [reflexivity|]. split; [do 2 eexists; split; [reflexivity|split; reflexivity]|].
  split; [reflexivity|]. do 2 eexists; split; [reflexivity|split; reflexivity].
Qed.
Lemma includes_spec t : (includes_min t = true <-> t = LMin \/ t = LBoth) /\ (includes_max t = true <-> t = LMax \/ t = LBoth).
Proof. destruct t; cbn; split; split; intros H; auto; try discriminate; destruct H; discriminate. Qed.
Lemma words_case : same_word "BoTH" "both" /\ ~ same_word "botha" "both" /\ ~ same_word "b0th" "both".
Proof. rewrite !same_word_lower. split; [reflexivity|]. split; discriminate. Qed.
Lemma frame_case : exists c, new_frame_task "pose" (tscalar 1) (tscalar 1) "tip" OBody None 0 None = Ok c /\
  frame_target c (tvec [1; 0; 0; 0; 0; 0; 0]%R) /\
  frame_target (snd (update_target_frame (FArr (tvec [1; 2; 3; 0; 1; 0; 0]%R)) c)) (tvec [0; 1; 0; 0; 1; 2; 3]%R).
Proof.
  eexists. split; [unfold new_frame_task, init_task; cbn; rewrite not_neg0; reflexivity|].
  split; do 3 eexists; reflexivity.
Qed.
Lemma pairs_case : exists c, new_self_collision "self" (tscalar 1) None 0 0 [CBInt 1; CBInt 2; CBStr "tip"; CBInt 1]%string [(CBStr "tip", CBInt 1)]%string (-1) = Ok c /\
  wf_bodies arm4 /\ wf_names arm4 /\ Forall2 (refers arm4) [CBInt 1; CBInt 2; CBStr "tip"; CBInt 1]%string [1; 2; 4; 1]%Z /\
  Forall2 (refers2 arm4) [(CBStr "tip", CBInt 1)]%string [(4, 1)]%Z /\ checks (snd (update_model arm4 c)) [(1, 3)]%Z.
Proof.
  assert (B : forall i, (0 <= i < 5)%Z -> refers arm4 (CBInt i) i) by (intros i Hi; constructor; exact Hi).
  assert (T : refers arm4 (CBStr "tip") 4) by (constructor; [right; now left|unfold is_body; cbn; lia]).
  eexists. split; [reflexivity|]. split; [apply chain_bodies|]. split; [apply chain_names|].
  split; [apply Forall2_cons; [apply B; lia|apply Forall2_cons; [apply B; lia|apply Forall2_cons; [exact T|apply Forall2_cons; [apply B; lia|constructor]]]]|].
  split; [apply Forall2_cons; [split; cbn; [exact T|apply B; lia]|constructor]|]. do 2 eexists. split; [vm_compute; reflexivity|reflexivity].
Qed.
Lemma order_case : exists c c', new_self_collision "a" (tscalar 1) None 0 0 [CBInt 1; CBInt 2; CBInt 3; CBInt 4] [(CBInt 1, CBInt 4)] (-1) = Ok c /\
  new_self_collision "b" (tscalar 1) None 0 0 [CBStr "tip"; CBInt 3; CBInt 1; CBInt 2; CBInt 3]%string [(CBStr "tip", CBInt 1)]%string (-1) = Ok c' /\
  checks (snd (update_model arm4 c)) [(0, 2); (1, 3)]%Z /\ checks (snd (update_model arm4 c')) [(1, 3); (0, 2)]%Z.
Proof.
  do 2 eexists. split; [reflexivity|]. split; [reflexivity|]. split; do 2 eexists; (split; [vm_compute; reflexivity|reflexivity]).
Qed.
Lemma equality_case : exists c, new_model_equality "eq" (tscalar 100) false None = Ok c /\
  let m := with_eq arm2 [EqConnect; EqJoint; EqWeld] in
  List.length (m_eq_type m) = m_neq m /\ Forall eq_supported (m_eq_type m) /\ a_dim (c_at (snd (update_model m c))) = 10%Z /\
  ~ Forall eq_supported [EqConnect; EqOther 7].
Proof.
  eexists. split; [reflexivity|]. cbv zeta. split; [reflexivity|]. split; [repeat constructor|]. split; [reflexivity|].
  intros H. inversion H; subst. inversion H3; subst. exact H4.
Qed.
