(** Lemmas behind PropsBinding: joint components, object components, limits. *)
From Verif Require Import Base Lin LinFacts Mjx Typing Component SpecComponent SpecJoint SpecHistory Witness.
From Verif Require Import ComponentFacts ComponentFacts2 ApiSteps JointFacts BindFacts BindFacts2 BindFacts3 CoreFacts ProblemFacts CompThms CompThms2.
Open Scope nat_scope.
#[local] Arguments update_model : simpl never.
#[local] Arguments jax_component : simpl never.

(** *** C16 *)
Lemma of_nat_map (g : nat -> nat) l : map (fun j => Z.of_nat (g j)) l = map Z.of_nat (map g l).
Proof. now rewrite map_map. Qed.
Lemma joint_indices_ok m fm : wf_joints m -> joint_indices m fm (qidx_of m fm) (vidx_of m fm).
Proof.
  intros H. split; [reflexivity|]. split; [reflexivity|]. split; [apply selected_sorted|]. split; [now apply selected_qpos_sorted|].
  split; [now apply selected_dof_sorted|]. intros j Hj. destruct (selected_bounds m fm j H Hj). split; [assumption|]. split; [assumption|].
  eapply selected_scalar; exact Hj.
Qed.
Lemma compiled_model c j : reachable c -> compiles c j -> a_model (c_at c) = Some (j_model j) /\ j_dim j = a_dim (c_at c) /\
  fst (mask_idxs c) = Ok (j_mask_idxs j) /\ ext_published (c_at c) (j_ext j).
Proof.
  intros R H. apply availability in H; [|exact R]. destruct H as (_ & A & B & _ & _ & C & D). auto.
Qed.
Lemma joint_task_indices name cost gain gf lm fm c os j : new_joint_task name cost gain gf lm fm = Ok c ->
  Forall sound_op os -> binds_ok os c -> compiles (history os c) j ->
  exists W lm' t q, j_ext j = JTask W lm' (JTJoint t q) /\ joint_indices (j_model j) fm q (j_mask_idxs j) /\
    j_dim j = Z.of_nat (List.length (selected (j_model j) fm)) /\ last_dim t = Ok (List.length (selected (j_model j) fm)).
Proof.
  intros Hn Ho Hb Hc. assert (R : reachable (history os c)) by (exists c, os; split; [eapply made_joint_task; exact Hn|reflexivity]).
  destruct (compiled_model _ _ R Hc) as (A & B & C & D).
  destruct (jt_history _ _ _ _ _ _ _ os Hn Ho Hb) as [(U & _)|(m & W & F & M & Dm & Mk & Mi & cost' & lm' & t & E & L)]; [congruence|].
  rewrite M in A. injection A as A. subst m.
  destruct (mask_idxs_explicit _ _ Mk) as [I _]. rewrite I in C. injection C as C.
  inversion D; try congruence. rewrite E in H0. injection H0 as <- <- <- <- <-.
  exists W0, lm', t, (qidx_of (j_model j) fm). split; [now symmetry|]. split; [rewrite <- C, Mi; now apply joint_indices_ok|].
  split; [now rewrite B|exact L].
Qed.
Lemma joint_barrier_indices name gain gf sdg lo hi fm c os j : new_joint_barrier name gain gf sdg lo hi fm = Ok c ->
  Forall sound_op os -> binds_ok os c -> compiles (history os c) j ->
  exists l h q, j_ext j = JBarrier sdg (JBJoint l h q) /\ joint_indices (j_model j) fm q (j_mask_idxs j) /\
    j_dim j = (2 * Z.of_nat (List.length (selected (j_model j) fm)))%Z.
Proof.
  intros Hn Ho Hb Hc. assert (R : reachable (history os c)) by (exists c, os; split; [eapply made_joint_barrier; exact Hn|reflexivity]).
  destruct (compiled_model _ _ R Hc) as (A & B & C & D).
  destruct (jb_history _ _ _ _ _ _ _ _ os Hn Ho Hb) as [(U & _)|(m & W & F & M & Dm & Mk & Mi & l & h & E)]; [congruence|].
  rewrite M in A. injection A as A. subst m.
  destruct (mask_idxs_explicit _ _ Mk) as [I _]. rewrite I in C. injection C as C.
  inversion D; try congruence. rewrite E in H0. injection H0 as <- <- <- <- <-.
  exists l, h, (qidx_of (j_model j) fm). split; [now symmetry|]. split; [rewrite <- C, Mi; now apply joint_indices_ok|now rewrite B].
Qed.

(** *** C17 *)
Lemma mask_length_checked m c f : wf_joints m -> user_mask c f -> ~ mask_fits m f -> fst (update_model m c) = Err ValueError.
Proof.
  intros Hw [(cost & lm & j & He & <-)|(s & j & He & <-)] Hf.
  - destruct (joint_task_bind m c cost lm j Hw He) as [B _]. apply B, Hf.
  - destruct (joint_barrier_bind m c s j Hw He) as [B _]. apply B, Hf.
Qed.
Lemma task_mask_accepted m c cost lm j : wf_joints m -> a_ext (c_at c) = XTask cost lm (TJoint j) -> mask_fits m (jt_final j) ->
  (fst (update_model m c) = Ok tt <->
     match jt_target j with None => True | Some t => last_dim t = Ok (List.length (selected m (jt_final j))) end).
Proof.
  intros Hw He Hf. destruct (joint_task_bind m c cost lm j Hw He) as [_ B]. destruct (B Hf) as [E _]. rewrite E.
  destruct (jt_target j) as [t|]; [|tauto]. destruct (last_dim t) as [k|e]; cbn; [|split; discriminate].
  destruct (Nat.eqb_spec k (List.length (selected m (jt_final j)))) as [->|N]; split; intros X; try reflexivity; try discriminate. injection X as X. contradiction.
Qed.
Lemma barrier_mask_accepted m c s j lo hi : wf_joints m -> a_ext (c_at c) = XBarrier s (BJoint j) -> mask_fits m (jb_final j) ->
  jb_qmin j = Some lo -> jb_qmax j = Some hi -> fst (update_model m c) = Ok tt.
Proof.
  intros Hw He Hf H1 H2. destruct (joint_barrier_bind m c s j Hw He) as [_ B]. destruct (B Hf) as (_ & _ & _ & _ & _ & E & _).
  apply E. now rewrite H1, H2.
Qed.

(** *** C22 *)
Lemma selected_all m f : mask_fits m f -> List.length (selected m f) = n_scalar m -> selected m f = scalar_joints (m_jnt_type m) 0.
Proof.
  intros Hf. unfold selected, n_scalar. destruct f as [f|]; [|reflexivity]. unfold mask_fits, n_scalar in Hf. revert f Hf.
  generalize (scalar_joints (m_jnt_type m) 0). induction l as [|x l IH]; intros [|y f] Hf H; cbn in *; try reflexivity; try lia.
  destruct (y =? 0)%Z; cbn in *.
  - exfalso. assert (K := map_length fst (filter (fun p : nat * Z => negb (snd p =? 0)%Z) (combine l f))).
    assert (K2 : List.length (filter (fun p : nat * Z => negb (snd p =? 0)%Z) (combine l f)) <= List.length (combine l f)).
    { generalize (combine l f). induction l0 as [|z l0 IH0]; cbn; [lia|]. destruct (negb _); cbn; lia. }
    rewrite combine_length in K2. lia.
  - f_equal. apply IH; lia.
Qed.
Lemma default_limits name gain gf sdg fm c m : new_joint_barrier name gain gf sdg None None fm = Ok c -> wf_joints m -> mask_fits m fm ->
  List.length (selected m fm) = n_scalar m ->
  fst (update_model m c) = Ok tt /\
  q_limits (snd (update_model m c)) (Some (tvec (map (fun j => fst (range_of m j)) (selected m fm))))
                                    (Some (tvec (map (fun j => snd (range_of m j)) (selected m fm)))).
Proof.
  intros Hn Hw Hf Hl. destruct (jb_new _ _ _ _ _ _ _ _ Hn) as (_ & _ & _ & lo & hi & He).
  assert (lo = None /\ hi = None) as [-> ->].
  { unfold new_joint_barrier, init_barrier in Hn. destruct (init_component _ _ _ _ _) as [a|] eqn:E; [|discriminate].
    injection Hn as <-. apply init_comp_mask in E. destruct E as (A & _). cbn in He. rewrite A in He. now injection He as <- <-. }
  destruct (joint_barrier_bind m c sdg _ Hw He) as [_ B]. destruct (B Hf) as (_ & _ & _ & _ & _ & E & _ & K). cbn [jb_final jb_qmin jb_qmax] in *.
  assert (O : fst (update_model m c) = Ok tt) by (apply E; split; now rewrite Hl). split; [exact O|]. apply K in O.
  rewrite (selected_all m fm Hf Hl). eexists; eexists; split; [exact O|]. split; reflexivity.
Qed.
Lemma explicit_limits c s j lo hi m : a_ext (c_at c) = XBarrier s (BJoint j) -> jb_qmin j = Some lo -> jb_qmax j = Some hi ->
  wf_joints m -> mask_fits m (jb_final j) ->
  fst (update_model m c) = Ok tt /\ q_limits (snd (update_model m c)) (Some lo) (Some hi).
Proof.
  intros He H1 H2 Hw Hf. assert (O := barrier_mask_accepted m c s j lo hi Hw He Hf H1 H2). split; [exact O|].
  destruct (joint_barrier_bind m c s j Hw He) as [_ B]. destruct (B Hf) as (_ & _ & _ & _ & _ & _ & _ & K). apply K in O.
  rewrite H1, H2 in O. eexists; eexists; split; [exact O|split; reflexivity].
Qed.
Lemma set_q_limits t c s j n : a_ext (c_at c) = XBarrier s (BJoint j) -> a_dim (c_at c) = (2 * Z.of_nat n)%Z ->
  (last_dim t = Ok n ->
     update_q_min t c = (Ok tt, mkC (set_a_ext (c_at c) (XBarrier s (BJoint (mkJB (jb_final j) (Some t) (jb_qmax j) (jb_qidx j))))) true (c_cache c)) /\
     update_q_max t c = (Ok tt, mkC (set_a_ext (c_at c) (XBarrier s (BJoint (mkJB (jb_final j) (jb_qmin j) (Some t) (jb_qidx j))))) true (c_cache c))) /\
  (ndim t <> 0 -> last_dim t <> Ok n -> update_q_min t c = (Err ValueError, c) /\ update_q_max t c = (Err ValueError, c)).
Proof.
  intros He Hd. assert (Hm : (a_dim (c_at c) =? -1)%Z = false) by (apply Z.eqb_neq; lia).
  unfold update_q_min, update_q_max, mbind, read, lift, dim, raise, seta. rewrite He, Hm, Hd. split.
  - intros ->. rewrite half_double, Z.eqb_refl. split; reflexivity.
  - intros Hn Hl. destruct (last_dim t) as [k|e] eqn:E.
    + rewrite half_double. destruct (Z.eqb_spec (Z.of_nat k) (Z.of_nat n)); [|split; reflexivity].
      exfalso. apply Hl. f_equal. lia.
    + apply last_dim_err in E. contradiction.
Qed.
Definition masked_barrier : comp := mkC (mkA "limits" None (tscalar 1) (fun x => x) (-1) None []
  (XBarrier 0%R (BJoint (mkJB (Some [1; 0]%Z) None None None)))) true None.
Lemma masked_default_raises : exists name gain gf sdg fm c m,
  new_joint_barrier name gain gf sdg None None (Some fm) = Ok c /\ wf_joints m /\ mask_fits m (Some fm) /\
  selected m (Some fm) <> [] /\ fst (update_model m c) = Err ValueError.
Proof.
  exists "limits"%string, (tscalar 1), None, 0%R, [1; 0]%Z, masked_barrier, arm2.
  split; [reflexivity|]. split; [apply chain_joints|]. split; [reflexivity|]. split; [discriminate|]. vm_compute. reflexivity.
Qed.
(** The failure is general: it happens for every proper mask. *)
Lemma masked_default_always_raises name gain gf sdg fm c m : new_joint_barrier name gain gf sdg None None fm = Ok c -> wf_joints m -> mask_fits m fm ->
  List.length (selected m fm) <> n_scalar m -> fst (update_model m c) = Err ValueError.
Proof.
  intros Hn Hw Hf Hl. destruct (jb_new _ _ _ _ _ _ _ _ Hn) as (_ & _ & _ & lo & hi & He).
  assert (lo = None /\ hi = None) as [-> ->].
  { unfold new_joint_barrier, init_barrier in Hn. destruct (init_component _ _ _ _ _) as [a|] eqn:E; [|discriminate].
    injection Hn as <-. apply init_comp_mask in E. destruct E as (A & _). cbn in He. rewrite A in He. now injection He as <- <-. }
  destruct (joint_barrier_bind m c sdg _ Hw He) as [_ B]. destruct (B Hf) as (_ & _ & _ & _ & _ & E & F & _). cbn [jb_final jb_qmin jb_qmax] in *.
  apply F. intros O. apply E in O. destruct O as [O _]. congruence.
Qed.
Definition short_barrier : comp := mkC (mkA "limits" None (tscalar 1) (fun x => x) (-1) None []
  (XBarrier 0%R (BJoint (mkJB None (Some (tvec [0]%R)) (Some (tvec [1; 1; 1]%R)) None)))) true None.
Lemma constructor_limits_unchecked : exists name gain gf sdg lo hi c m j l h q,
  new_joint_barrier name gain gf sdg (Some lo) (Some hi) None = Ok c /\ wf_joints m /\
  compiles (snd (update_model m c)) j /\ j_ext j = JBarrier sdg (JBJoint l h q) /\
  j_dim j = 4%Z /\ last_dim l = Ok 1 /\ last_dim h = Ok 3.
Proof.
  exists "limits"%string, (tscalar 1), None, 0%R, (tvec [0]%R), (tvec [1; 1; 1]%R), short_barrier, arm2. do 4 eexists.
  split; [reflexivity|]. split; [apply chain_joints|]. split; [vm_compute; reflexivity|]. repeat split.
Qed.

(** *** C23 *)
Lemma joint_target_consistent name cost gain gf lm fm c os j : new_joint_task name cost gain gf lm fm = Ok c ->
  Forall sound_op os -> binds_ok os c -> compiles (history os c) j ->
  exists W lm' t q d, j_ext j = JTask W lm' (JTJoint t q) /\ j_dim j = Z.of_nat d /\ last_dim t = Ok d.
Proof.
  intros. destruct (joint_task_indices _ _ _ _ _ _ _ _ _ H H0 H1 H2) as (W & lm' & t & q & A & _ & B & C).
  exists W, lm', t, q, (List.length (selected (j_model j) fm)). auto.
Qed.
Lemma default_target name cost gain gf lm fm c m : new_joint_task name cost gain gf lm fm = Ok c -> wf_joints m -> mask_fits m fm ->
  fst (update_model m c) = Ok tt /\ q_target (snd (update_model m c)) (Some (tvec (repeat 0%R (List.length (selected m fm))))).
Proof.
  intros Hn Hw Hf. assert (He : exists cost lm, a_ext (c_at c) = XTask cost lm (TJoint (mkJT fm None None))).
  { unfold new_joint_task in Hn. destruct (init_task _ _ _ _ _ _ _) as [a|] eqn:E; [|discriminate]. injection Hn as <-.
    apply init_task_mask in E. destruct E as (_ & _ & E & _). do 2 eexists. exact E. }
  destruct He as (cost' & lm' & He). destruct (joint_task_bind m c cost' lm' _ Hw He) as [_ B]. cbn [jt_final jt_target] in B.
  destruct (B Hf) as (O & _ & _ & _ & _ & _ & X). split; [exact O|]. do 3 eexists. split; [exact X|reflexivity].
Qed.
Lemma bad_target_bind m c cost lm j t : wf_joints m -> a_ext (c_at c) = XTask cost lm (TJoint j) -> jt_target j = Some t -> ndim t <> 0 ->
  last_dim t <> Ok (List.length (selected m (jt_final j))) -> fst (update_model m c) = Err ValueError.
Proof.
  intros Hw He Ht Hn Hl. destruct (joint_task_bind m c cost lm j Hw He) as [B1 B2].
  destruct (mask_fits_dec m (jt_final j)) as [F|F]; [|apply B1, F]. destruct (B2 F) as [E _]. rewrite E, Ht.
  destruct (last_dim t) as [k|e] eqn:L; [|apply last_dim_err in L; contradiction]. cbn.
  destruct (Nat.eqb_spec k (List.length (selected m (jt_final j)))); [congruence|reflexivity].
Qed.
Lemma bad_target_set m fm c t : jt_bound m fm (c_at c) ->
  let n := List.length (selected m fm) in
  (last_dim t = Ok n -> fst (update_target_q t c) = Ok tt /\ q_target (snd (update_target_q t c)) (Some t)) /\
  (ndim t <> 0 -> last_dim t <> Ok n -> update_target_q t c = (Err ValueError, c)).
Proof.
  intros (_ & _ & _ & D & _ & _ & cost & lm & t0 & E & _). cbn zeta.
  assert (Hd : a_dim (c_at c) <> (-1)%Z) by lia. destruct (set_target_q t c cost lm _ E Hd) as [A B]. split.
  - intros L. rewrite (A _ L) by now rewrite D. split; [reflexivity|]. do 3 eexists. split; reflexivity.
  - intros Hn Hl. destruct B as [B1 B2].
    { intros n L X. apply Hl. rewrite L. f_equal. lia. }
    rewrite (surjective_pairing (update_target_q t c)), B1, B2. destruct (Nat.eqb_spec (ndim t) 0); [contradiction|reflexivity].
Qed.
(** The setter property for every bound JointTask obtained through the API. *)
Lemma target_setter name cost gain gf lm fm c os t : new_joint_task name cost gain gf lm fm = Ok c ->
  Forall sound_op os -> binds_ok os c -> a_dim (c_at (history os c)) <> (-1)%Z ->
  exists n, a_dim (c_at (history os c)) = Z.of_nat n /\
  (last_dim t = Ok n -> fst (update_target_q t (history os c)) = Ok tt /\ q_target (snd (update_target_q t (history os c))) (Some t)) /\
  (ndim t <> 0 -> last_dim t <> Ok n -> update_target_q t (history os c) = (Err ValueError, history os c)).
Proof.
  intros Hn Ho Hb Hd. destruct (jt_history _ _ _ _ _ _ _ os Hn Ho Hb) as [(_ & U & _)|(m & B)]; [congruence|].
  exists (List.length (selected m fm)). split; [now destruct B as (_ & _ & _ & D & _)|]. now apply bad_target_set.
Qed.
Definition failed_joint : comp := history [OpTargetQ (tvec [7; 7; 7]%R); OpModel arm2] CompThms2.demo_joint.
Lemma failed_bind_compiles : exists name cost gain gf lm c os j W lm' t q,
  new_joint_task name cost gain gf lm None = Ok c /\ Forall sound_op os /\ compiles (history os c) j /\
  j_ext j = JTask W lm' (JTJoint t q) /\ j_dim j = 2%Z /\ last_dim t = Ok 3.
Proof.
  exists "hold"%string, (tscalar 1), (tscalar 1), None, 0%R.
  exists (mkC (mkA "hold" None (tscalar 1) (fun x => x) (-1) None [] (XTask (tscalar 1) 0%R (TJoint (mkJT None None None)))) true None).
  exists [OpTargetQ (tvec [7; 7; 7]%R); OpModel arm2]. do 5 eexists.
  split; [unfold new_joint_task, init_task; cbn; rewrite not_neg0; reflexivity|].
  split; [repeat constructor|]. split; [vm_compute; reflexivity|]. repeat split.
Qed.
