(** Model binding, kind by kind. *)
From Verif Require Import Base Lin LinFacts Mjx Typing Component SpecComponent ComponentFacts ComponentFacts2
  SpecJoint JointFacts ApiSteps.
Open Scope R_scope.
Open Scope Z_scope.
Open Scope nat_scope.

#[local] Arguments Nat.ltb : simpl never.
#[local] Arguments Nat.eqb : simpl never.
#[local] Arguments bind_joint_masks : simpl never.
#[local] Arguments selected : simpl never.
#[local] Arguments last_dim : simpl never.

(** ** Joint task *)
Definition jt_sel (m : mjmodel) (j : jtask_at) := selected m (jt_final j).
Definition qidx_of (m : mjmodel) f := map (fun j => Z.of_nat (qpos_of m j)) (selected m f).
Definition vidx_of (m : mjmodel) f := map (fun j => Z.of_nat (dof_of m j)) (selected m f).

Lemma joint_task_bind m c cost lm j : wf_joints m -> a_ext (c_at c) = XTask cost lm (TJoint j) ->
  let n := List.length (selected m (jt_final j)) in
  (~ mask_fits m (jt_final j) -> fst (update_model m c) = Err ValueError /\
      a_dim (c_at (snd (update_model m c))) = a_dim (c_at c) /\ a_ext (c_at (snd (update_model m c))) = a_ext (c_at c)) /\
  (mask_fits m (jt_final j) ->
     fst (update_model m c) =
       match jt_target j with
       | None => Ok tt
       | Some t => do k <- last_dim t; if Nat.eqb k n then Ok tt else Err ValueError
       end /\
     let a' := c_at (snd (update_model m c)) in
     a_dim a' = Z.of_nat n /\ a_model a' = Some m /\ a_mask_idxs a' = vidx_of m (jt_final j) /\
     a_mask a' = Some (expandf jnt_nv (m_jnt_type m) (fin m (jt_final j))) /\
     a_gain a' = a_gain (c_at c) /\
     a_ext a' = XTask cost lm (TJoint (mkJT (jt_final j)
        (match jt_target j with None => Some (tvec (vzero n)) | t => t end) (Some (qidx_of m (jt_final j)))))).
Proof.
  intros Hw He n.
  assert (HU : update_model m c = update_model_joint_task m j c) by (unfold update_model, mbind, read; now rewrite He).
  rewrite HU. split; intros Hf.
  - destruct (bind_joint_bad m (jt_final j) c Hw Hf) as (c' & H1 & H2 & H3 & _).
    unfold update_model_joint_task, mbind. rewrite H1. cbn. auto.
  - unfold update_model_joint_task, mseq, mbind. rewrite (bind_joint_ok m (jt_final j) c Hw Hf).
    assert (Hn : List.length (map (fun j0 : nat => Z.of_nat (dof_of m j0)) (selected m (jt_final j))) = n) by apply map_length.
    unfold seta. cbn [fst snd c_at c_cache c_modified]. rewrite !Hn.
    unfold bound_state, set_jt_qidx. cbn. rewrite !He. cbn.
    destruct (jt_target j) as [t|] eqn:Et; cbn.
    + unfold lift, last_dim_neq. destruct (last_dim t) as [k|] eqn:El; cbn.
      * destruct (Nat.eqb k n) eqn:Ek.
        -- apply Nat.eqb_eq in Ek. subst k. rewrite Z.eqb_refl. cbn. repeat split.
        -- apply Nat.eqb_neq in Ek. replace (Z.of_nat k =? Z.of_nat n)%Z with false by (symmetry; apply Z.eqb_neq; lia).
           cbn. repeat split.
      * repeat split.
    + unfold update_target_q, mbind, read, lift, ret, raise. cbn.
      rewrite of_nat_neq_m1. unfold last_dim_neq. rewrite last_dim_tvec, vzero_length. cbn. rewrite Z.eqb_refl. cbn.
      repeat split.
Qed.

(** ** Joint barrier *)
Lemma scalar_ranges_eq m (g : R * R -> R) : wf_joints m ->
  scalar_ranges m g = map (fun j => g (range_of m j)) (scalar_joints (m_jnt_type m) 0).
Proof.
  intros (_ & _ & _ & _ & _ & Hl). unfold scalar_ranges, range_of. revert Hl.
  generalize (m_jnt_range m) as rs, (m_jnt_type m) as ts. intros rs ts. revert rs.
  induction ts as [|t ts IH]; intros [|r rs] Hl; cbn in *; try discriminate; try reflexivity.
  injection Hl as Hl. rewrite scalar_joints_shift. destruct (is_scalar t); cbn; rewrite map_map, (IH _ Hl); reflexivity.
Qed.

Lemma half_double n : (2 * Z.of_nat n / 2 = Z.of_nat n)%Z.
Proof. rewrite Z.mul_comm. now apply Z.div_mul. Qed.

Lemma joint_barrier_bind m c s j : wf_joints m -> a_ext (c_at c) = XBarrier s (BJoint j) ->
  let n := List.length (selected m (jb_final j)) in
  let dflt (o : option tensor) := match o with None => n_scalar m = n | Some _ => True end in
  (~ mask_fits m (jb_final j) -> fst (update_model m c) = Err ValueError /\
      a_dim (c_at (snd (update_model m c))) = a_dim (c_at c) /\ a_ext (c_at (snd (update_model m c))) = a_ext (c_at c)) /\
  (mask_fits m (jb_final j) ->
     let a' := c_at (snd (update_model m c)) in
     a_dim a' = (2 * Z.of_nat n)%Z /\ a_model a' = Some m /\ a_mask_idxs a' = vidx_of m (jb_final j) /\
     a_mask a' = Some (expandf jnt_nv (m_jnt_type m) (fin m (jb_final j))) /\
     a_gain a' = a_gain (c_at c) /\
     (fst (update_model m c) = Ok tt <-> dflt (jb_qmin j) /\ dflt (jb_qmax j)) /\
     (fst (update_model m c) <> Ok tt -> fst (update_model m c) = Err ValueError) /\
     (fst (update_model m c) = Ok tt ->
       a_ext a' = XBarrier s (BJoint (mkJB (jb_final j)
        (match jb_qmin j with None => Some (tvec (map (fun i => fst (range_of m i)) (scalar_joints (m_jnt_type m) 0))) | t => t end)
        (match jb_qmax j with None => Some (tvec (map (fun i => snd (range_of m i)) (scalar_joints (m_jnt_type m) 0))) | t => t end)
        (Some (qidx_of m (jb_final j))))))).
Proof.
  intros Hw He n dflt.
  assert (HU : update_model m c = update_model_joint_barrier m j c) by (unfold update_model, mbind, read; now rewrite He).
  rewrite HU. split; intros Hf.
  - destruct (bind_joint_bad m (jb_final j) c Hw Hf) as (c' & H1 & H2 & H3 & _).
    unfold update_model_joint_barrier, mbind. rewrite H1. cbn. auto.
  - assert (Hn : List.length (map (fun j0 : nat => Z.of_nat (dof_of m j0)) (selected m (jb_final j))) = n) by apply map_length.
    unfold update_model_joint_barrier, mseq, mbind. rewrite (bind_joint_ok m (jb_final j) c Hw Hf).
    unfold seta. cbn [fst snd c_at c_cache c_modified]. rewrite !Hn.
    unfold bound_state, set_jb_qidx. cbn -[Z.mul]. rewrite !He. cbn -[Z.mul]. rewrite !scalar_ranges_eq by assumption.
    unfold update_q_min, update_q_max, mbind, read, lift, raise, ret. unfold dim.
    assert (Hd : (2 * Z.of_nat n =? -1)%Z = false) by (apply Z.eqb_neq; lia).
    assert (Hl : forall g : R * R -> R, last_dim (tvec (map (fun j0 => g (range_of m j0)) (scalar_joints (m_jnt_type m) 0))) = Ok (n_scalar m)).
    { intros g. rewrite last_dim_tvec, map_length. reflexivity. }
    pose proof (Hl fst) as Hlf. pose proof (Hl snd) as Hls. cbv beta in Hlf, Hls.
    assert (He' : (Z.of_nat (n_scalar m) =? 2 * Z.of_nat n / 2)%Z = Nat.eqb (n_scalar m) n).
    { rewrite half_double. destruct (Nat.eqb (n_scalar m) n) eqn:E; [apply Nat.eqb_eq in E|apply Nat.eqb_neq in E];
       [apply Z.eqb_eq|apply Z.eqb_neq]; lia. }
    destruct (jb_qmin j) as [lo|] eqn:Elo; destruct (jb_qmax j) as [hi|] eqn:Ehi; cbn -[Z.mul].
    + repeat split; auto; congruence.
    + rewrite ?Hlf, ?Hls. cbn -[Z.mul]. rewrite Hd. cbn -[Z.mul]. rewrite He'. destruct (Nat.eqb (n_scalar m) n) eqn:E; cbn -[Z.mul].
      * apply Nat.eqb_eq in E. repeat split; auto; try congruence.
      * apply Nat.eqb_neq in E. repeat split; auto; try congruence; try (intros [H1 H2]; cbn in *; congruence); try discriminate.
    + rewrite ?Hlf, ?Hls. cbn -[Z.mul]. rewrite Hd. cbn -[Z.mul]. rewrite He'. destruct (Nat.eqb (n_scalar m) n) eqn:E; cbn -[Z.mul].
      * apply Nat.eqb_eq in E. repeat split; auto; try congruence.
      * apply Nat.eqb_neq in E. repeat split; auto; try congruence; try (intros [H1 H2]; cbn in *; congruence); try discriminate.
    + rewrite ?Hlf, ?Hls. cbn -[Z.mul]. rewrite Hd. cbn -[Z.mul]. rewrite He'. destruct (Nat.eqb (n_scalar m) n) eqn:E; cbn -[Z.mul].
      * rewrite ?Hlf, ?Hls. cbn -[Z.mul]. rewrite Hd. cbn -[Z.mul]. rewrite He'. cbn -[Z.mul]. apply Nat.eqb_eq in E. repeat split; auto; try congruence.
      * apply Nat.eqb_neq in E. repeat split; auto; try congruence; try (intros [H1 H2]; cbn in *; congruence); try discriminate.
Qed.
