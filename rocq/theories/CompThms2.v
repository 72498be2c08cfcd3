(** Combined statements and concrete components for PropsComponent. *)
From Verif Require Import Base Lin LinFacts Mjx Typing Component SpecComponent SpecJoint SpecHistory Witness.
From Verif Require Import ComponentFacts ComponentFacts2 ApiSteps JointFacts BindFacts BindFacts2 BindFacts3 CoreFacts ProblemFacts CompThms.
Open Scope nat_scope.
#[local] Arguments update_model : simpl never.

Lemma reads_have_no_effect c : reachable c ->
  fst (jax_component (snd (jax_component c))) = fst (jax_component c) /\
  same_public c (snd (jax_component c)) /\
  (is_ok (fst (jax_component c)) = false -> c_modified (snd (jax_component c)) = true) /\
  (forall o, In o [OpReadMask; OpReadMaskIdxs; OpReadJax] ->
     same_public c (after o c) /\ fst (jax_component (after o c)) = fst (jax_component c)).
Proof. intros H. destruct (read_effect c H) as (A & B & C). repeat (split; [assumption|]). now apply reads_invisible. Qed.
Lemma availability_full c : reachable c ->
  (forall j, compiles c j <-> published c j) /\
  (a_model (c_at c) = None \/ a_dim (c_at c) = (-1)%Z -> fst (jax_component c) = Err ValueError).
Proof. intros H. split; [now apply availability|now apply unavailable]. Qed.
Lemma only_value_error c0 os e : constructed c0 -> wf_arrays (c_at c0) -> Forall wf_call os ->
  fst (jax_component (history os c0)) = Err e -> e = ValueError.
Proof.
  intros H W F. apply api_error; [exact H| |exact F].
  destruct W as [W1 W2]. split; [exact W1|]. destruct (a_ext (c_at c0)); auto.
Qed.
Lemma vector_gain_full a d : a_dim a = Z.of_nat d -> wf_tensor (a_gain a) ->
  (forall v, vector_gain a = Ok v <-> gain_means (a_gain a) d v) /\
  (forall e, vector_gain a = Err e -> e = ValueError).
Proof. intros H W. split; [intros; now apply vector_gain_iff|intros; now apply (vector_gain_err a)]. Qed.
Lemma vector_gain_unknown a : a_dim a = (-1)%Z -> vector_gain a = Err ValueError.
Proof. exact (vector_gain_nodim a). Qed.
Lemma gain_setter_at t c :
  (1 < ndim t -> update_gain t c = (Err ValueError, c)) /\
  (ndim t <= 1 -> fst (update_gain t c) = Ok tt /\ c_at (snd (update_gain t c)) = set_a_gain (c_at c) t).
Proof. destruct (gain_setter t c) as [A B]. split; [exact A|]. intros H. now rewrite (B H). Qed.
Lemma matrix_cost_full a cost lm k : a_ext a = XTask cost lm k -> wf_tensor cost ->
  (forall d W, a_dim a = Z.of_nat d -> (matrix_cost a = Ok W <-> cost_means cost d W)) /\
  (forall e, matrix_cost a = Err e -> e = ValueError) /\
  (a_dim a = (-1)%Z -> matrix_cost a = Err ValueError).
Proof.
  intros He Hw. split; [intros; eapply matrix_cost_iff; eauto|]. split; [intros; eapply matrix_cost_err; eauto|].
  intros Hd. unfold matrix_cost. now rewrite Hd.
Qed.
Lemma cost_setter_at t c cost lm k : a_ext (c_at c) = XTask cost lm k ->
  (2 < ndim t -> update_cost t c = (Err ValueError, c)) /\
  (ndim t <= 2 -> fst (update_cost t c) = Ok tt /\ c_at (snd (update_cost t c)) = set_a_ext (c_at c) (XTask t lm k)).
Proof. intros He. destruct (cost_setter t c cost lm k He) as [A B]. split; [exact A|]. intros H. now rewrite (B H). Qed.
Lemma soft_cost_full a act hard soft k :
  a_ext a = XConstraint act hard soft k -> (forall t, soft = Some t -> wf_tensor t) -> (-1 <= a_dim a)%Z ->
  (forall d W, a_dim a = Z.of_nat d ->
     (soft_constraint_cost a = Ok W <-> cost_means (match soft with Some t => t | None => tscalar 100 end) d W)) /\
  (forall e, soft_constraint_cost a = Err e -> e = ValueError) /\
  (a_dim a = (-1)%Z -> soft_constraint_cost a = Err ValueError).
Proof.
  intros He Hw Hd. split; [|split].
  - intros d W E. destruct soft as [t|]; [eapply soft_cost_some; eauto|].
    unfold soft_constraint_cost. rewrite He. unfold dim. rewrite E, of_nat_neq_m1. cbn. rewrite zsize_nat. cbn.
    rewrite <- cost_matrix_iff by reflexivity. unfold cost_matrix. cbn. rewrite zsize_nat. reflexivity.
  - intros e. eapply soft_cost_err; eauto.
  - intros E. unfold soft_constraint_cost. rewrite He. unfold dim. rewrite E. destruct soft; reflexivity.
Qed.
Lemma mask_unavailable c : (-1 <= a_dim (c_at c))%Z ->
  ((exists e, fst (mask_idxs c) = Err e) <-> (a_mask (c_at c) = None /\ a_dim (c_at c) = (-1)%Z)).
Proof. intros H. apply mask_idxs_err. intros _. exact H. Qed.

(** Joint masks *)
Lemma argwhere_expandf m f : wf_joints m -> mask_fits m f ->
  argwhere (expandf jnt_nv (m_jnt_type m) (fin m f)) = vidx_of m f.
Proof.
  intros (_ & _ & Hv & _) Hf. change (argwhere ?l) with (argw 0 l). rewrite argw_expandf; [|exact one_nv|now apply fin_length].
  unfold vidx_of, dof_of. rewrite selected_sel, Hv. reflexivity.
Qed.
Lemma joint_masks_agree m c c' : wf_joints m -> joint_component c -> bound_to m c c' ->
  exists mk idx, fst (mask c') = Ok mk /\ fst (mask_idxs c') = Ok idx /\ selects mk idx.
Proof.
  intros Hw Hj Hb. unfold bound_to in Hb.
  assert (K : forall f, mask_fits m f -> a_mask (c_at c') = Some (expandf jnt_nv (m_jnt_type m) (fin m f)) -> a_mask_idxs (c_at c') = vidx_of m f ->
     exists mk idx, fst (mask c') = Ok mk /\ fst (mask_idxs c') = Ok idx /\ selects mk idx).
  { intros f Hf Hm Hi. destruct (mask_idxs_explicit c' _ Hm) as [A B]. exists (expandf jnt_nv (m_jnt_type m) (fin m f)), (vidx_of m f).
    rewrite A, B, Hi. repeat (split; [reflexivity|]). rewrite <- argwhere_expandf by assumption. apply argwhere_selects. }
  destruct Hj as [(cost & lm & j & He)|(s & j & He)].
  - destruct (joint_task_bind m c cost lm j Hw He) as [B1 B2]. rewrite Hb in B1, B2. cbn [fst snd] in B1, B2.
    destruct (mask_fits_dec m (jt_final j)) as [Hf|Hf]; [|destruct (B1 Hf); discriminate].
    destruct (B2 Hf) as (_ & _ & _ & Hi & Hm & _). now apply (K (jt_final j)).
  - destruct (joint_barrier_bind m c s j Hw He) as [B1 B2]. rewrite Hb in B1, B2. cbn [fst snd] in B1, B2.
    destruct (mask_fits_dec m (jb_final j)) as [Hf|Hf]; [|destruct (B1 Hf); discriminate].
    destruct (B2 Hf) as (_ & _ & Hi & Hm & _). now apply (K (jb_final j)).
Qed.

(** ** Concrete components *)
Definition blank : comp := mkC (mkA "" None (tscalar 0) (fun x => x) (-1) None [] (XConstraint true true None CModelEq)) true None.
Definition demo_task_r : res comp :=
  new_position_task "reach" (tvec [1; 2; 3]%R) (tscalar 2) "tip" OBody None 0%R None.
Definition demo_task : comp := mkC (mkA "reach" None (tscalar 2) (fun x => x) 3 None []
  (XTask (tvec [1; 2; 3]%R) 0%R (TPos (mkO "tip" OBody (-1)) (tvec [0; 0; 0]%R)))) true None.
Lemma not_neg0 (A : Type) (x y : A) : (if Rlt_dec 0 0 then x else y) = y.
Proof. destruct (Rlt_dec 0 0); [lra|reflexivity]. Qed.
Lemma demo_task_ok : demo_task_r = Ok demo_task.
Proof. unfold demo_task_r, new_position_task, init_task. cbn. rewrite not_neg0. reflexivity. Qed.
Lemma demo_task_made : constructed demo_task.
Proof. eapply made_position_task. exact demo_task_ok. Qed.
Definition masked_task : comp := mkC (mkA "reach" None (tscalar 2) (fun x => x) 2 (Some [1; 0; 1]%Z) [0; 2]%Z
  (XTask (tscalar 1) 0%R (TPos (mkO "tip" OBody (-1)) (tvec [0; 0]%R)))) true None.
Lemma masked_task_ok : new_position_task "reach" (tscalar 1) (tscalar 2) "tip" OBody None 0%R (Some (mvec [1; 0; 1]%Z)) = Ok masked_task.
Proof. unfold new_position_task, init_task. cbn. rewrite not_neg0. reflexivity. Qed.
Definition demo_constraint : comp := mkC (mkA "loop" None (tscalar 1) (fun x => x) 2 None []
  (XConstraint true false None (CCustom (fun d => [nth 0 (d_qpos d) 0; nth 1 (d_qpos d) 0]%R)))) true None.
Definition demo_equality : comp := mkC (mkA "eq" None (tscalar 1) (fun x => x) (-1) None [] (XConstraint true true None CModelEq)) true None.
Definition demo_joint : comp := mkC (mkA "joints" None (tscalar 1) (fun x => x) (-1) None []
  (XTask (tscalar 1) 0%R (TJoint (mkJT (Some [1; 0; 1; 0]%Z) None None)))) true None.
(** bind, read, set a bad gain (raises), set a target, read *)
Definition demo_ops : list cop :=
  [OpModel arm2; OpReadJax; OpGain (mkT [1; 1] [7%R]); OpTargetPos (tvec [1; 1; 1]%R); OpReadJax].

Lemma demo_fresh : constructed demo_task /\
  exists j1 j2, fst (jax_component (history demo_ops demo_task)) = Ok j1 /\
    fst (jax_component (history (demo_ops ++ [OpTargetPos (tvec [1; 2; 3]%R)]) demo_task)) = Ok j2 /\ j1 <> j2 /\
    c_modified (history demo_ops demo_task) = false.
Proof.
  split; [exact demo_task_made|]. do 2 eexists. split; [vm_compute; reflexivity|]. split; [vm_compute; reflexivity|]. split; [|vm_compute; reflexivity].
  intros H. injection H as H. lra.
Qed.
Lemma demo_reads : reachable (history demo_ops demo_task) /\ is_ok (fst (jax_component (history demo_ops demo_task))) = true /\
  reachable demo_task /\ is_ok (fst (jax_component demo_task)) = false.
Proof.
  split; [exists demo_task, demo_ops; split; [exact demo_task_made|reflexivity]|]. split; [vm_compute; reflexivity|].
  split; [exists demo_task, []; split; [exact demo_task_made|reflexivity]|]. vm_compute; reflexivity.
Qed.
Lemma demo_available : reachable (history demo_ops demo_task) /\ (exists j, published (history demo_ops demo_task) j) /\
  constructed demo_task /\ wf_arrays (c_at demo_task) /\ Forall wf_call demo_ops /\
  fst (jax_component (history [OpGain (tvec [1; 2]%R)] (history demo_ops demo_task))) = Err ValueError.
Proof.
  assert (R : reachable (history demo_ops demo_task)) by (exists demo_task, demo_ops; split; [exact demo_task_made|reflexivity]).
  split; [exact R|]. split.
  - eexists. apply availability; [exact R|]. unfold compiles. vm_compute. reflexivity.
  - split; [exact demo_task_made|]. split; [split; reflexivity|]. split; [repeat constructor|]. vm_compute. reflexivity.
Qed.
Lemma demo_gain :
  a_dim (c_at demo_task) = Z.of_nat 3 /\ wf_tensor (a_gain (c_at demo_task)) /\
  vector_gain (c_at demo_task) = Ok [2; 2; 2]%R /\
  vector_gain (c_at (history [OpGain (tvec [4; 5; 6]%R)] demo_task)) = Ok [4; 5; 6]%R /\
  vector_gain (c_at (history [OpGain (tvec [4; 5]%R)] demo_task)) = Err ValueError /\
  ndim (mkT [1; 1] [7%R]) = 2.
Proof. repeat split. Qed.
Lemma demo_cost :
  (exists lm k, a_ext (c_at demo_task) = XTask (tvec [1; 2; 3]%R) lm k) /\ wf_tensor (tvec [1; 2; 3]%R) /\
  matrix_cost (c_at demo_task) = Ok [[1; 0; 0]; [0; 2; 0]; [0; 0; 3]]%R /\
  matrix_cost (c_at (history [OpCost (mkT [2; 2] [1; 2; 3; 4]%R)] demo_task)) = Err ValueError /\
  cost_means (tvec [5; 7]%R) 2 [[5; 0]; [0; 7]]%R.
Proof.
  split; [do 2 eexists; reflexivity|]. split; [reflexivity|]. split; [reflexivity|]. split; [reflexivity|].
  apply cost_matrix_iff; reflexivity.
Qed.
Lemma demo_soft :
  (exists act h k, a_ext (c_at demo_constraint) = XConstraint act h None k) /\ a_dim (c_at demo_constraint) = Z.of_nat 2 /\
  soft_constraint_cost (c_at demo_constraint) = Ok [[100; 0]; [0; 100]]%R.
Proof.
  split; [do 3 eexists; reflexivity|]. split; [reflexivity|].
  change (Ok (mscale 100 (eye 2)) = Ok [[100; 0]; [0; 100]]%R). unfold mscale, vscale, eye, unit_row. cbn [map seq Nat.eqb].
  rewrite !Rmult_1_r, !Rmult_0_r. reflexivity.
Qed.
Lemma demo_masks :
  takes_mask (Some (mvec [1; 0; 1]%Z)) 3 masked_task /\ fst (mask_idxs masked_task) = Ok [0; 2]%Z /\
  takes_mask None 3 demo_task /\ fst (mask_idxs demo_task) = Ok [0; 1; 2]%Z /\
  new_model_equality "eq" (tscalar 1) true None = Ok demo_equality /\
  a_dim (c_at (history [OpModel (with_eq arm2 [EqConnect; EqJoint])] demo_equality)) = Z.of_nat 4 /\
  fst (mask_idxs demo_equality) = Err ValueError.
Proof.
  split; [eapply tm_position; exact masked_task_ok|]. split; [reflexivity|]. split; [eapply tm_position; exact demo_task_ok|].
  repeat (split; [reflexivity|]). reflexivity.
Qed.
Lemma demo_joint_bound : wf_joints arm4 /\ joint_component demo_joint /\ bound_to arm4 demo_joint (history [OpModel arm4] demo_joint) /\
  fst (mask_idxs (history [OpModel arm4] demo_joint)) = Ok [0; 2]%Z.
Proof.
  split; [apply chain_joints|]. split; [left; do 3 eexists; reflexivity|]. split; vm_compute; reflexivity.
Qed.
Lemma masks_disagree : exists c os mk idx, constructed c /\ Forall api_op os /\ binds_ok os c /\
  fst (mask (history os c)) = Ok mk /\ fst (mask_idxs (history os c)) = Ok idx /\ ~ selects mk idx.
Proof.
  exists demo_equality, [OpModel (with_eq arm2 [EqJoint]); OpReadMask; OpModel (with_eq arm2 [EqConnect])], [1%Z], [0; 1; 2]%Z.
  split; [eapply made_model_equality with (name := "eq"%string) (gain := tscalar 1) (hard := true) (soft := None); reflexivity|].
  split; [repeat constructor|]. split; [repeat split|]. split; [reflexivity|]. split; [reflexivity|].
  intros [_ H]. specialize (H 1%Z). cbn in H. assert (In 1 [0; 1; 2])%Z by (right; left; reflexivity). apply H in H0. lia.
Qed.
