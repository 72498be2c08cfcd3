(** C75: mask and mask_idxs along every history. *)
From Verif Require Import Base Lin Mjx Typing Component SpecComponent SpecJoint SpecHistory Witness CompThms CompThms2 MaskAgree.
Open Scope nat_scope.

(** Take any component that is not a model equality constraint and any calls on it, reads and
    failing setters included, in which every binding to a model succeeded.  Whenever the two
    views can be read, [mask_idxs] lists exactly the non-zero positions of [mask].  Missing from
    the full statement: equality constraints, for which it is false. *)
Theorem C75_all_but_equality_partial c os mk idx : constructed c -> (forall n g h s, new_model_equality n g h s <> Ok c) -> Forall api_op os -> binds_ok os c ->
  fst (mask (history os c)) = Ok mk -> fst (mask_idxs (history os c)) = Ok idx -> selects mk idx.
Proof. exact (views_agree c os mk idx). Qed.
Print Assumptions C75_all_but_equality_partial.

(** A joint task with a mask, bound to one robot, read, and bound to another. *)
Example C75_all_but_equality_case : let os := [OpModel arm4; OpReadMask; OpGain (tscalar 3); OpModel arm4; OpTargetCom (tscalar 0)] in
  constructed demo_joint /\ (forall n g h s, new_model_equality n g h s <> Ok demo_joint) /\ Forall api_op os /\ binds_ok os demo_joint /\
  exists mk, fst (mask (history os demo_joint)) = Ok mk /\ fst (mask_idxs (history os demo_joint)) = Ok [0; 2]%Z.
Proof.
  split. { apply (made_joint_task "joints" (tscalar 1) (tscalar 1) None 0%R (Some [1; 0; 1; 0]%Z)). unfold new_joint_task, init_task. cbn. rewrite not_neg0. reflexivity. }
  split. { intros n g h s. unfold new_model_equality, init_component. destruct (Nat.ltb 1 (ndim g)); [discriminate|]. cbn. discriminate. }
  split; [repeat constructor|]. split; [repeat split; vm_compute; reflexivity|]. eexists. split; vm_compute; reflexivity.
Qed.

(** Of a model equality constraint, [mask] is always all ones and [mask_idxs] always
    [0, 1, ..., dim - 1]; so the two agree exactly if [mask] has [dim] entries, that is, unless it
    was read while the constraint was bound to a robot with another number of equality rows. *)
Theorem C75_equality_agrees_iff n g h s c os mk idx : new_model_equality n g h s = Ok c -> Forall api_op os -> binds_ok os c ->
  fst (mask (history os c)) = Ok mk -> fst (mask_idxs (history os c)) = Ok idx ->
  exists d, a_dim (c_at (history os c)) = Z.of_nat d /\ idx = map Z.of_nat (seq 0 d) /\ Forall (eq 1%Z) mk /\ (selects mk idx <-> List.length mk = d).
Proof. exact (equality_views n g h s c os mk idx). Qed.
Print Assumptions C75_equality_agrees_iff.

Example C75_equality_case : let os := [OpModel (with_eq arm2 [EqJoint]); OpReadMask; OpModel (with_eq arm2 [EqConnect])] in
  new_model_equality "eq" (tscalar 1) true None = Ok demo_equality /\ Forall api_op os /\ binds_ok os demo_equality /\
  fst (mask (history os demo_equality)) = Ok [1]%Z /\ fst (mask_idxs (history os demo_equality)) = Ok [0; 1; 2]%Z.
Proof. split; [reflexivity|]. split; [repeat constructor|]. split; [repeat split|]. split; reflexivity. Qed.

(** In any state the two views are available together or not at all. *)
Theorem C75_available_together c : (exists mk, fst (mask c) = Ok mk) <-> (exists idx, fst (mask_idxs c) = Ok idx).
Proof. exact (views_together c). Qed.
Print Assumptions C75_available_together.

Example C75_available_case : fst (mask demo_equality) = Err ValueError /\ fst (mask_idxs demo_equality) = Err ValueError /\
  (exists mk, fst (mask masked_task) = Ok mk) /\ fst (mask_idxs masked_task) = Ok [0; 2]%Z.
Proof. repeat (split; [reflexivity || (eexists; reflexivity)|]). reflexivity. Qed.
