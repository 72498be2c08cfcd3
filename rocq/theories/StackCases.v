(** Lemmas behind C121: components as the examples make them. *)
From Verif Require Import Base Lin LinFacts Mjx Typing Component Problem SpecComponent SpecJoint SpecHistory SpecTyping SpecCollision SpecTree SpecShape SpecContact SpecSelf SpecValue SpecProblem SpecQP SpecFit SpecTrace SpecSetup.
From Verif Require Import BindThms2 ComponentFacts SetupFacts SetupFacts2 SetupFacts5 Conf JaxComponents LocalIK GlobalIK SpecMotion SpecLoop SpecSolve SpecGlobal SpecClosed SpecGLoop SpecAnyLoop ClosedThms2 AnyLoopThms AnyLoopThms2.
From Verif Require Import JaxTree SpecJaxTree SpecBatch SpecVmap SpecLanes LanesLoop LanesAny SpecStacks StackFacts.
Open Scope nat_scope.
#[local] Arguments update_model : simpl never.
#[local] Arguments jax_component : simpl never.
#[local] Arguments build_component : simpl never.

(** Harmless in every respect that the loop theorems ask about. *)
Definition easy (m : mjmodel) (c : comp) : Prop :=
  tame m c /\ soft_component c /\ (forall dt, mild dt c) /\ (forall q, in_limits m q c) /\ forall L q, evaluates L m q c.

Lemma frame_ready n cost g s ty lm msk ft m i : new_frame_task n (tscalar cost) (tscalar g) s ty None lm msk = Ok ft -> has_pose ty -> has_object m ty s i ->
  ready m ft /\ nm ft = n /\ easy m ft /\ exists o t, a_ext (c_at ft) = XTask (tscalar cost) lm (TFrame o t).
Proof.
  intros H Hp Hi. assert (H0 := H). apply made_frame_task in H0. unfold new_frame_task, init_task, init_component in H. cbn [ndim t_shape tscalar List.length] in H. cbn [Nat.ltb Nat.leb] in H.
  assert (X : exists mk ix, ft = new_comp (set_a_dim (mkA n None (tscalar g) (fun x => x) (-1) mk ix (XTask (tscalar cost) lm (TFrame (mkO s ty (-1)) (tvec se3_identity)))) (Z.of_nat (dim_or 6 msk (mkA n None (tscalar g) (fun x => x) (-1) mk ix (XTask (tscalar cost) lm (TFrame (mkO s ty (-1)) (tvec se3_identity)))))))).
  { destruct msk as [k|]; [destruct (negb _); [discriminate|]|]; cbn [bind] in H; (destruct (Rlt_dec lm 0); [discriminate|]); cbn [bind] in H; injection H as <-; eexists; eexists; reflexivity. }
  destruct X as (mk & ix & ->). clear H. split; [split; [exact H0|]|]; [|split; [reflexivity|]].
  - split; [split; reflexivity|]. split.
    + eexists. split; [now left|]. split; [now left|]. split; [reflexivity|]. now exists i.
    + split; [exact Hp|exists se3_identity; split; reflexivity].
  - split; [repeat split|]. eexists. eexists. reflexivity.
Qed.
Lemma com_any n cost g lm msk ct m : new_com_task n (tscalar cost) (tscalar g) None lm msk = Ok ct ->
  ready m ct /\ nm ct = n /\ easy m ct /\ exists t, a_ext (c_at ct) = XTask (tscalar cost) lm (TCom t).
Proof.
  intros H. assert (H0 := H). apply made_com_task in H0. unfold new_com_task, init_task, init_component in H. cbn [ndim t_shape tscalar List.length] in H. cbn [Nat.ltb Nat.leb] in H.
  destruct (match msk with Some k => _ | None => Ok tt end) as [[]|]; [|discriminate]. cbn [bind] in H.
  assert (X : exists mk ix d, ct = new_comp (mkA n None (tscalar g) (fun x => x) (Z.of_nat d) mk ix (XTask (tscalar cost) lm (TCom (tvec (vzero d)))))).
  { destruct msk as [k|]; [destruct (negb _); [discriminate|]|]; cbn [bind] in H; (destruct (Rlt_dec lm 0); [discriminate|]); cbn [bind dim_or a_mask_idxs set_a_dim set_a_ext] in H; injection H as <-.
    - eexists. eexists. eexists. reflexivity.
    - exists None, [], 3. reflexivity. }
  destruct X as (mk & ix & d & ->). clear H. split; [split; [exact H0|]|]; [|split; [reflexivity|]].
  - split; [split; [reflexivity|]|].
    + cbn. unfold wf_tensor, tvec, vzero. cbn. rewrite ?repeat_length. lia.
    + split; [|eexists; reflexivity]. exists d. split; [now left|]. split; [now left|]. reflexivity.
  - split; [repeat split|]. eexists. reflexivity.
Qed.
Lemma limits_ready n g sdg jb m : new_joint_barrier n (tscalar g) None sdg None None None = Ok jb -> 0 < n_scalar m ->
  ready m jb /\ nm jb = n /\ tame m jb /\ soft_component jb /\ (forall dt, (0 <= g)%R -> (g * dt <= 1)%R -> mild dt jb) /\ (forall q, in_limits m q jb <-> in_range m q) /\ forall L q, evaluates L m q jb.
Proof.
  intros H Hn. destruct (limits_suits _ _ _ _ _ m H) as (J1 & J2 & J3 & J4 & J5). pose proof (limits_track m _ _ _ _ _ Hn H) as J6. pose proof (fun x => limits_range m x _ _ _ _ _ H) as J9.
  split; [unfold ready; eauto|]. split; [exact J5|]. assert (J8 : forall dt, (0 <= g)%R -> (g * dt <= 1)%R -> mild dt jb) by (intros dt Hg Hd; exact (limits_mild _ _ _ _ dt Hg Hd H)).
  apply limits_new in H. subst jb. split; [exact J6|]. split; [exact I|]. split; [exact J8|]. split; [exact J9|]. intros L q. exact I.
Qed.
Lemma equality_any n g eq m : new_model_equality n (tscalar g) false None = Ok eq -> Forall eq_supported (m_eq_type m) ->
  ready m eq /\ nm eq = n /\ tame m eq /\ soft_component eq /\ (forall dt, mild dt eq) /\ (forall q, in_limits m q eq) /\
  forall L q, List.length (flagged (d_efc_pos (update L m q)) (d_efc_is_equality (update L m q))) = eq_total m -> evaluates L m q eq.
Proof.
  intros H Hs. destruct (equality_ready _ _ _ _ m H Hs) as (E1 & E2 & E3 & E4 & E5 & E6 & E7 & E8 & E9 & E10). split; [unfold ready; auto|]. split; [exact E5|]. split; [exact E6|]. split; [now apply E7|]. auto.
Qed.
(** Self-collision barriers between listed bodies. *)
Lemma crowd_ready n g sdg dm b0 bs ids er ex sc m : new_self_collision n (tscalar g) None sdg dm (b0 :: bs) er (-1) = Ok sc -> sound_model m ->
  Forall2 (refers m) (b0 :: bs) ids -> Forall2 (refers2 m) er ex ->
  ready m sc /\ nm sc = n /\ soft_component sc /\ (forall dt, (0 <= g)%R -> (g * dt <= 1)%R -> mild dt sc) /\ (forall q, in_limits m q sc) /\
  exists s, a_ext (c_at sc) = XBarrier sdg (BSelf s) /\ sc_bodies s = b0 :: bs /\ sc_excl_raw s = er /\ sc_n s = (-1)%Z.
Proof.
  intros H Hm Hr He. assert (H0 := H). apply made_self_collision in H0. cbn in H. injection H as <-. destruct Hm as (_ & Wb & _ & Wn & _).
  destruct (generated m _ ids er ex Wb Wn Hr He) as (exs & ps & _ & _ & C).
  split; [split; [exact H0|split; [split; [reflexivity|exact I]|split; [|exact I]]]|].
  { exists (List.length ps). split; [now left|]. cbn. exists ids, ex, ps. split; [exact Hr|]. split; [exact He|]. split; [exact C|reflexivity]. }
  split; [reflexivity|]. split; [exact I|]. split; [intros dt Hg Hd; split; [intros x; reflexivity|repeat (constructor; try assumption)]|]. split; [intros q; exact I|]. eexists. repeat split.
Qed.
Lemma wall_ready n g s px sdg pb m i : new_position_barrier n (tscalar g) s OBody None (Some (tscalar px)) "max" None sdg (Some (mvec [1; 0; 0]%Z)) = Ok pb -> has_object m OBody s i ->
  ready m pb /\ nm pb = n /\ soft_component pb /\ (forall q, in_limits m q pb) /\ forall L q, evaluates L m q pb.
Proof.
  intros H Hi. destruct (wall_suits _ _ _ _ _ _ m i H Hi) as (F1 & F2 & F3 & F4 & F5). split; [unfold ready; eauto|]. split; [exact F5|].
  apply wall_new in H. subst pb. repeat split.
Qed.
