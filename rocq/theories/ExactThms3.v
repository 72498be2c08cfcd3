(** Exact forms of C27, C58 and C66. *)
From Verif Require Import Base Lin LinFacts Mjx Typing Component SpecComponent SpecJoint SpecHistory SpecTyping SpecCollision Witness.
From Verif Require Import ComponentFacts ComponentFacts2 BindFacts BindFacts2 CompThms BindThms2 Conf JaxComponents GlobalIK SpecGlobal GlobalFacts2 ConfThms SpecExact2.
Open Scope R_scope.

(** ** C27 *)
Lemma name_missing m o : wf_names m -> (forall i, ~ has_object m (ob_type o) (ob_name o) i) -> name2id m (ob_type o) (ob_name o) = (-1)%Z.
Proof.
  intros Hw Hn. destruct (Z.eq_dec (name2id m (ob_type o) (ob_name o)) (-1)) as [E|E]; [exact E|]. exfalso. apply (Hn (name2id m (ob_type o) (ob_name o))). apply name2id_spec; auto.
Qed.
Lemma rebind_keeps_iff m c o : wf_names m -> object_of (c_at c) = Some o -> (forall i, ~ has_object m (ob_type o) (ob_name o) i) ->
  (object_of (c_at (snd (update_model m c))) = Some o <-> ob_id o = (-1)%Z).
Proof.
  intros Hw Ho Hn. destruct (failed_rebind m c o Hw Ho Hn) as (_ & -> & _). split.
  - intros H. injection H as H. rewrite <- H. reflexivity.
  - intros H. destruct o as [n t i]. cbn in *. now subst.
Qed.
Lemma rebind_compiles m c o cost lm k j : wf_names m -> object_of (c_at c) = Some o -> (forall i, ~ has_object m (ob_type o) (ob_name o) i) -> reachable c -> a_ext (c_at c) = XTask cost lm k -> compiles c j ->
  compiles (snd (update_model m c)) (loses_object j).
Proof.
  intros Hw Ho Hn R E Hj. apply availability in Hj; [|exact R].
  assert (R' : reachable (snd (update_model m c))).
  { destruct R as (c0 & os & H0 & ->). exists c0, (os ++ [OpModel m]). split; [exact H0|]. unfold history. now rewrite fold_left_app. }
  apply availability; [exact R'|]. destruct Hj as (D & Dj & Mj & G & F & I & P). destruct (failed_rebind m c o Hw Ho Hn) as (_ & _ & h2 & h3 & h5 & _ & h8).
  assert (A : c_at (snd (update_model m c)) = set_obj_id (c_at c) (-1)) by (rewrite (obj_bind m c o Ho), (name_missing m o Hw Hn); reflexivity).
  set (c' := snd (update_model m c)) in *. clearbody c'. unfold published, loses_object. cbn [j_dim j_model j_gain j_gain_fn j_mask_idxs j_ext]. assert (VG : vector_gain (c_at c') = vector_gain (c_at c)) by (unfold vector_gain, dim; now rewrite h3, h5). rewrite VG, h5, h2, h8. rewrite A, (proj1 (proj2 (proj2 (proj2 (set_obj_id_other (c_at c) (-1)))))).
  split; [exact D|]. split; [exact Dj|]. split; [exact Mj|]. split; [exact G|]. split; [exact F|]. split; [exact I|].
  assert (Dm : a_dim (set_obj_id (c_at c) (-1)) = a_dim (c_at c)) by apply set_obj_id_other.
  unfold object_of in Ho. rewrite E in Ho. destruct k as [| o1 t|o1 t| |]; try discriminate; injection Ho as ->; inversion P as [| ? ? ? ? W E1 C1|? ? ? ? W E1 C1| | | | | | | |]; rewrite E in *; try discriminate; injection E1 as <- <- <- <-.
  - unfold set_obj_id in *. rewrite E in *. eapply pub_pos with (o := set_ob_id o (-1)); [reflexivity|]. unfold matrix_cost in *. rewrite Dm. rewrite E in C1. exact C1.
  - unfold set_obj_id in *. rewrite E in *. eapply pub_frame with (o := set_ob_id o (-1)); [reflexivity|]. unfold matrix_cost in *. rewrite Dm. rewrite E in C1. exact C1.
Qed.

(** ** C58 *)
Lemma sizes_differ ts : total jnt_nq ts = total jnt_nv ts <-> Forall (fun t => is_scalar t = true) ts.
Proof.
  assert (G : (total jnt_nv ts <= total jnt_nq ts)%nat /\ (total jnt_nq ts = total jnt_nv ts <-> Forall (fun t => is_scalar t = true) ts)); [|apply G].
  induction ts as [|t ts [IH1 IH2]]; [split; [apply le_n|split; constructor]|]. cbn [total fold_right] in *. fold (total jnt_nq ts) (total jnt_nv ts) in *.
  destruct t; cbn [jnt_nq jnt_nv] in *; (split; [lia|]); split; intros H; try (inversion H; discriminate); try lia.
  all: first [constructor; [reflexivity|apply IH2; lia]|inversion H; subst; apply IH2 in H3; lia].
Qed.
Lemma velocity_right_iff L grad O sm dt x st pd q' v st' : wf_joints sm -> List.length x = m_nq sm -> grad_keeps_length grad -> step_keeps_length O ->
  gsolve L grad O sm dt (tvec x) st pd = Ok (q', v, st') -> (List.length v = m_nv sm <-> Forall (fun t => is_scalar t = true) (m_jnt_type sm)).
Proof.
  intros (_ & _ & _ & Eq & Ev & _) Hx Hg Ho H. rewrite (proj1 (solution_lengths L grad O sm dt x st pd q' v st' Hx Hg Ho H)), Eq, Ev. apply sizes_differ.
Qed.

(** ** C66 *)
Lemma limit_usable_iff m l : (forall t, l = LArr t -> wf_tensor t) ->
  ((exists G h, get_configuration_limit m l = Ok (G, h) /\ List.length h = List.length G) <-> (exists x, l = LFloat x) \/ (exists la, l = LArr (tvec la) /\ List.length la = m_nv m)).
Proof.
  intros Hw. split.
  - intros (G & h & E & Hl). destruct l as [x|k|t]; [left; now exists x|discriminate|]. right. specialize (Hw t eq_refl). unfold get_configuration_limit in E. destruct (ndim t) as [|[|n]] eqn:N; try discriminate. cbn [bind] in E. injection E as <- <-.
    assert (Hm : List.length (mscale (-1) (eye (m_nv m)) ++ eye (m_nv m)) = (m_nv m + m_nv m)%nat) by (rewrite app_length, (proj1 (mscale_is_mat _ _ (-1) _ (eye_is_mat (m_nv m)))), (proj1 (eye_is_mat (m_nv m))); reflexivity).
    rewrite Hm, app_length in Hl. clear Hm. unfold ndim in N. destruct t as [[|s [|]] d]; try discriminate. exists d. unfold wf_tensor in Hw. cbn in Hw, Hl. rewrite Nat.mul_1_r in Hw. split; [unfold tvec; rewrite Hw; reflexivity|lia].
  - intros [(x & ->)|(la & -> & Hl)].
    + destruct (limit_facts m (LFloat x) (vconst (m_nv m) x)) as (G & h & E & [A _] & B & _); [left; now exists x|]. exists G, h. split; [exact E|congruence].
    + destruct (limit_facts m (LArr (tvec la)) la) as (G & h & E & [A _] & B & _); [right; auto|]. exists G, h. split; [exact E|congruence].
Qed.
