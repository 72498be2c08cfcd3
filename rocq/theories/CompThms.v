(** Lemmas behind the property file PropsComponent. *)
From Verif Require Import Base Lin LinFacts Mjx Typing Component SpecComponent SpecJoint SpecHistory.
From Verif Require Import ComponentFacts ComponentFacts2 ApiSteps JointFacts BindFacts BindFacts2 BindFacts3 CoreFacts ProblemFacts.
Open Scope nat_scope.
#[local] Arguments Nat.ltb : simpl never.
#[local] Arguments build_component : simpl never.
#[local] Arguments jax_component : simpl never.
#[local] Arguments update_model : simpl never.

Lemma never_stale c0 os : constructed c0 ->
  fst (jax_component (history os c0)) = fst (jax_component (scratch (history os c0))).
Proof.
  intros H. rewrite (jax_modified (scratch _)) by reflexivity. cbn [scratch c_at]. apply jax_value. apply reachable_Inv. now exists c0, os.
Qed.

Lemma mask_snd c : c_at (snd (mask c)) = match forced (c_at c) with Ok a' => a' | Err _ => c_at c end.
Proof.
  unfold mask, mseq, mbind. rewrite force_eq. unfold forced. destruct (a_mask (c_at c)) eqn:E.
  - reflexivity.
  - destruct (a_dim (c_at c) =? -1)%Z; [reflexivity|]. destruct (get_default_mask (c_at c)); reflexivity.
Qed.
Lemma mask_read_public c c' : Inv c -> Inv c' ->
  c_at c' = match forced (c_at c) with Ok a' => a' | Err _ => c_at c end ->
  same_public c c' /\ fst (jax_component c') = fst (jax_component c).
Proof.
  intros I I' H. rewrite !jax_value by assumption. destruct (forced (c_at c)) as [a'|e] eqn:E.
  - split.
    + destruct c' as [a'' b k]. cbn in H. subst a''. now apply forced_public.
    + rewrite H. now apply jax_pure_forced.
  - split; [now apply same_public_at|]. now rewrite H.
Qed.
Lemma reads_invisible c : reachable c ->
  forall o, In o [OpReadMask; OpReadMaskIdxs; OpReadJax] ->
  same_public c (after o c) /\ fst (jax_component (after o c)) = fst (jax_component c).
Proof.
  intros Hr o Ho. assert (I := reachable_Inv c Hr).
  assert (I' : Inv (after o c)) by now apply after_Inv.
  destruct Ho as [<-|[<-|[<-|[]]]]; unfold after in *; cbn [run_cop] in *; rewrite ignore_at in *.
  - apply mask_read_public; [exact I|exact I'|]. apply mask_snd.
  - apply mask_read_public; [exact I|exact I'|]. apply mask_idxs_snd.
  - destruct (read_effect c Hr) as (A & B & _). now split.
Qed.

Lemma availability c : reachable c -> forall j, compiles c j <-> published c j.
Proof. intros H j. unfold compiles. rewrite jax_value by now apply reachable_Inv. apply jax_pure_published. Qed.
Lemma unavailable c : reachable c -> a_model (c_at c) = None \/ a_dim (c_at c) = (-1)%Z ->
  fst (jax_component c) = Err ValueError.
Proof.
  intros H Hn. rewrite jax_value by now apply reachable_Inv. unfold jax_pure. destruct (a_model (c_at c)); [|reflexivity].
  destruct Hn as [Hn| ->]; [discriminate|reflexivity].
Qed.

(** Array arguments of a constructor are arrays. *)
Lemma gain_setter t c :
  (1 < ndim t -> update_gain t c = (Err ValueError, c)) /\
  (ndim t <= 1 -> update_gain t c = (Ok tt, mkC (set_a_gain (c_at c) t) true (c_cache c))).
Proof.
  unfold update_gain. destruct (Nat.ltb_spec 1 (ndim t)); split; intros; try lia; reflexivity.
Qed.
Lemma gain_new c : constructed c -> ndim (a_gain (c_at c)) <= 1.
Proof.
  assert (I : forall name gain gf mk k a, init_component name gain gf mk k = Ok a -> ndim (a_gain a) <= 1).
  { intros. unfold init_component in H. destruct (Nat.ltb_spec 1 (ndim gain)); [discriminate|].
    destruct mk; [destruct (negb _); [discriminate|]|]; injection H as <-; cbn; lia. }
  assert (J : forall name cost gain gf lm mk k a, init_task name cost gain gf lm mk k = Ok a -> ndim (a_gain a) <= 1).
  { intros. apply init_task_mask in H. destruct H as (_ & _ & _ & _ & -> & Hg & _). exact Hg. }
  intros H. destruct H.
  - unfold new_com_task in H. destruct mk as [[sh ?]|]; [destruct sh; [discriminate|]; cbn in H; destruct (Nat.eqb _ _); [|discriminate]|]; cbn in H;
      (destruct (init_task _ _ _ _ _ _ _) eqn:E; [|discriminate]; injection H as <-; cbn; eapply J; exact E).
  - unfold new_position_task in H. destruct (init_task _ _ _ _ _ _ _) eqn:E; [|discriminate]. injection H as <-. cbn. eapply J; exact E.
  - unfold new_frame_task in H. destruct (init_task _ _ _ _ _ _ _) eqn:E; [|discriminate]. injection H as <-. cbn. eapply J; exact E.
  - unfold new_joint_task in H. destruct (init_task _ _ _ _ _ _ _) eqn:E; [|discriminate]. injection H as <-. cbn. eapply J; exact E.
  - unfold new_custom_task in H. destruct (init_task _ _ _ _ _ _ _) eqn:E; [|discriminate]. injection H as <-. cbn. eapply J; exact E.
  - unfold new_position_barrier in H. destruct (init_barrier _ _ _ _ _ _) as [a|] eqn:E; [|discriminate]. cbn [bind] in H.
    destruct (negb _); [discriminate|]. destruct (from_str lt) as [t|]; [|discriminate]. cbn [bind] in H.
    assert (Ha : ndim (a_gain a) <= 1) by (eapply I; exact E).
    set (P := fun a : attrs => ndim (a_gain a) <= 1).
    assert (K : forall (f : tensor -> M unit) x, (forall c, core (c_at (snd (f x c))) = core (c_at c)) -> forall c, P (c_at c) -> P (c_at (snd (f x c)))).
    { intros f x Hf c0 H0. unfold P in *. specialize (Hf c0). unfold core in Hf. injection Hf as _ Hg _ _. now rewrite Hg. }
    assert (P (c_at c)); [|exact H0].
    match type of H with context [let '(_, _) := ?X in _] => destruct X as [idxs d] end.
    match type of H with bind ?X _ = _ => destruct X as [c1|] eqn:E1; [|discriminate] end. cbn [bind] in H.
    assert (P (c_at c1)).
    { destruct lo as [x|]; [|injection E1 as <-; exact Ha].
      refine (pb_fold P _ _ _ _ _ E1); [|exact Ha]. apply (K update_p_min). apply keeps_pmin. }
    destruct hi as [x|]; [|injection H as <-; exact H0].
    refine (pb_fold P _ _ _ _ _ H); [|exact H0]. apply (K update_p_max). apply keeps_pmax.
  - unfold new_joint_barrier in H. destruct (init_barrier _ _ _ _ _ _) eqn:E; [|discriminate]. injection H as <-. cbn. eapply I; exact E.
  - unfold new_self_collision in H. destruct (init_barrier _ _ _ _ _ _) eqn:E; [|discriminate]. injection H as <-. cbn. eapply I; exact E.
  - unfold new_custom_barrier in H. destruct (init_barrier _ _ _ _ _ _) eqn:E; [|discriminate]. injection H as <-. cbn. eapply I; exact E.
  - unfold new_model_equality in H. destruct (init_component _ _ _ _ _) eqn:E; [|discriminate]. injection H as <-. cbn. eapply I; exact E.
  - unfold new_custom_constraint in H. destruct (init_component _ _ _ _ _) eqn:E; [|discriminate]. injection H as <-. cbn. eapply I; exact E.
Qed.
Lemma gain_rank c os : constructed c -> Forall api_op os -> ndim (a_gain (c_at (history os c))) <= 1.
Proof.
  intros H Ho. apply (api_history (fun a => ndim (a_gain a) <= 1)); [exact Ho|now apply gain_new| |].
  - intros a a' Ha S. destruct S; cbn; auto. apply forced_other in H0. destruct H0 as (_ & _ & -> & _). exact Ha.
  - intros c1 m H1. assert (K := keeps_update_model m c1). unfold core in K. injection K as _ -> _ _. exact H1.
Qed.

Lemma cost_setter t c cost lm k : a_ext (c_at c) = XTask cost lm k ->
  (2 < ndim t -> update_cost t c = (Err ValueError, c)) /\
  (ndim t <= 2 -> update_cost t c = (Ok tt, mkC (set_a_ext (c_at c) (XTask t lm k)) true (c_cache c))).
Proof.
  intros He. unfold update_cost, mbind, read. rewrite He. destruct (Nat.ltb_spec 2 (ndim t)); split; intros; try lia; reflexivity.
Qed.
Lemma matrix_cost_iff a cost lm k d W : a_ext a = XTask cost lm k -> a_dim a = Z.of_nat d -> wf_tensor cost ->
  (matrix_cost a = Ok W <-> cost_means cost d W).
Proof. intros He Hd Hw. unfold matrix_cost. rewrite He, Hd, of_nat_neq_m1. now apply cost_matrix_iff. Qed.
Lemma matrix_cost_err a cost lm k e : a_ext a = XTask cost lm k -> wf_tensor cost -> matrix_cost a = Err e -> e = ValueError.
Proof.
  intros He Hw. unfold matrix_cost. rewrite He. destruct (a_dim a =? -1)%Z; [congruence|]. now apply cost_matrix_err.
Qed.
Lemma weighting W t d e : cost_means t d W -> List.length e = d ->
  (forall x, t = mkT [] [x] -> mv W e = map (Rmult x) e) /\
  (wf_tensor t -> t_shape t = [d] -> mv W e = vmul (t_data t) e).
Proof.
  intros HW Hl. assert (wf_or : forall t', t' = t -> wf_tensor t -> cost_matrix (Z.of_nat d) t = Ok W).
  { intros t' _ Hw. now apply cost_matrix_iff. }
  split.
  - intros x ->. assert (E := wf_or _ eq_refl eq_refl). unfold cost_matrix in E. cbn in E. rewrite zsize_nat in E. cbn in E.
    injection E as <-. now apply mv_scaled_eye.
  - intros Hw Hs. assert (E := wf_or _ eq_refl Hw). unfold cost_matrix, ndim in E. rewrite Hs in E. cbn in E.
    assert (L := wf_vector t d Hw Hs). rewrite L, Z.eqb_refl in E. cbn in E. injection E as <-. apply mv_diag. lia.
Qed.

Lemma soft_cost_none a act h k d : a_ext a = XConstraint act h None k -> a_dim a = Z.of_nat d ->
  exists W, soft_constraint_cost a = Ok W /\ cost_means (tscalar 100) d W.
Proof.
  intros He Hd. unfold soft_constraint_cost. rewrite He. unfold dim. rewrite Hd, of_nat_neq_m1. cbn. rewrite zsize_nat. cbn.
  eexists. split; [reflexivity|]. apply cost_matrix_iff; [reflexivity|]. unfold cost_matrix. cbn. now rewrite zsize_nat.
Qed.
Lemma soft_cost_some a act h t k d W : a_ext a = XConstraint act h (Some t) k -> a_dim a = Z.of_nat d -> wf_tensor t ->
  (soft_constraint_cost a = Ok W <-> cost_means t d W).
Proof.
  intros He Hd Hw. unfold soft_constraint_cost. rewrite He. unfold dim. rewrite Hd, of_nat_neq_m1. cbn. now apply cost_matrix_iff.
Qed.
Lemma soft_cost_err a act h so k e : a_ext a = XConstraint act h so k -> (forall t, so = Some t -> wf_tensor t) -> (-1 <= a_dim a)%Z ->
  soft_constraint_cost a = Err e -> e = ValueError.
Proof.
  intros He Hw Hd. unfold soft_constraint_cost. rewrite He. unfold dim. destruct (a_dim a =? -1)%Z; [destruct so; cbn; congruence|]. cbn.
  destruct so as [t|]; [now apply cost_matrix_err; apply Hw|]. unfold zsize. destruct (a_dim a <? 0)%Z; cbn; congruence.
Qed.

(** Masks. *)
Lemma mask_state_mask mk0 d c : a_dim (c_at c) = Z.of_nat d -> mask_state mk0 d (c_at c) ->
  fst (mask c) = Ok (match mk0 with Some l => l | None => repeat 1%Z d end).
Proof.
  intros Hd H. rewrite mask_fst. unfold forced. destruct mk0 as [l|]; cbn in H.
  - destruct H as [H _]. rewrite H. cbn. now rewrite H.
  - destruct H as [H|[H _]]; rewrite H; cbn; [|now rewrite H].
    rewrite Hd, of_nat_neq_m1. unfold get_default_mask, dim. rewrite Hd, of_nat_neq_m1. cbn. rewrite zsize_nat. reflexivity.
Qed.

Lemma mask_history mk d c os : takes_mask mk d c -> Forall api_op os ->
  exists d', a_dim (c_at (history os c)) = Z.of_nat d' /\ mask_state (mk_opt mk) d' (c_at (history os c)) /\
    (mk = None -> d' = d).
Proof.
  intros H Ho. destruct H.
  - exists (task_dim 3 mk). assert (com_inv (mk_opt mk) (task_dim 3 mk) (c_at (history os c))) as (A & B & _).
    { apply (api_history (com_inv (mk_opt mk) (task_dim 3 mk))); [exact Ho|eapply com_inv_new; exact H|intros; eapply com_inv_step; eauto|intros; now apply com_inv_bind]. }
    split; [exact A|split; [exact B|intros ->; reflexivity]].
  - exists (task_dim 3 mk). assert (pos_inv (mk_opt mk) (task_dim 3 mk) on ty (c_at (history os c))) as (A & B & _).
    { apply (api_history (pos_inv (mk_opt mk) (task_dim 3 mk) on ty)); [exact Ho|eapply pos_inv_new; exact H|intros; eapply pos_inv_step; eauto|intros; now apply pos_inv_bind]. }
    split; [exact A|split; [exact B|intros ->; reflexivity]].
  - exists (task_dim 6 mk). assert (frame_inv (mk_opt mk) (task_dim 6 mk) on ty (c_at (history os c))) as (A & B & _).
    { apply (api_history (frame_inv (mk_opt mk) (task_dim 6 mk) on ty)); [exact Ho|eapply frame_inv_new; exact H|intros; eapply frame_inv_step; eauto|intros; now apply frame_inv_bind]. }
    split; [exact A|split; [exact B|intros ->; reflexivity]].
  - exists d. assert (custom_inv (mk_opt mk) d (c_at (history os c))) as (A & B & _).
    { apply (api_history (custom_inv (mk_opt mk) d)); [exact Ho|eapply custom_task_inv_new; exact H|intros; eapply custom_inv_step; eauto|intros; now apply custom_inv_bind]. }
    auto.
  - exists d. assert (custom_inv (mk_opt mk) d (c_at (history os c))) as (A & B & _).
    { apply (api_history (custom_inv (mk_opt mk) d)); [exact Ho|eapply custom_barrier_inv_new; exact H|intros; eapply custom_inv_step; eauto|intros; now apply custom_inv_bind]. }
    auto.
  - exists d. assert (custom_inv (mk_opt mk) d (c_at (history os c))) as (A & B & _).
    { apply (api_history (custom_inv (mk_opt mk) d)); [exact Ho|eapply custom_constraint_inv_new; exact H|intros; eapply custom_inv_step; eauto|intros; now apply custom_inv_bind]. }
    auto.
  - apply pbar_inv_new in H. destruct H as (lt' & _ & H).
    assert (pbar_inv (mk_data k) on ty sdg lt' (c_at (history os c))) as (A & B & _).
    { apply (api_history (pbar_inv (mk_data k) on ty sdg lt')); [exact Ho|exact H|intros; eapply pbar_inv_step; eauto|intros; now apply pbar_inv_bind]. }
    eexists. split; [exact A|split; [exact B|discriminate]].
Qed.
Lemma mask_explicit k d c os : takes_mask (Some k) d c -> Forall api_op os ->
  fst (mask (history os c)) = Ok (mk_data k) /\
  exists idx, fst (mask_idxs (history os c)) = Ok idx /\ selects (mk_data k) idx /\
    List.length idx = List.length (filter (fun x => negb (x =? 0)%Z) (mk_data k)).
Proof.
  intros H Ho. destruct (mask_history _ _ _ os H Ho) as (d' & A & B & _).
  split; [now apply (mask_state_mask (Some (mk_data k)) d')|].
  exists (argwhere (mk_data k)). split; [now apply (mask_state_read (Some (mk_data k)) d')|].
  split; [apply argwhere_selects|apply argwhere_length].
Qed.
Lemma mask_default d c os : takes_mask None d c -> Forall api_op os ->
  a_dim (c_at (history os c)) = Z.of_nat d /\
  fst (mask_idxs (history os c)) = Ok (map Z.of_nat (seq 0 d)) /\
  fst (mask (history os c)) = Ok (repeat 1%Z d).
Proof.
  intros H Ho. destruct (mask_history _ _ _ os H Ho) as (d' & A & B & C). rewrite (C eq_refl) in *. clear C.
  split; [exact A|]. split; [now apply (mask_state_read None d)|now apply (mask_state_mask None d)].
Qed.

Lemma init_component_rank name gain gf k e : List.length (mk_shape k) <> 1 -> init_component name gain gf (Some k) e = Err ValueError.
Proof.
  intros H. unfold init_component. destruct (Nat.ltb 1 (ndim gain)); [reflexivity|]. apply Nat.eqb_neq in H. now rewrite H.
Qed.
Lemma mask_rank_rejected k d c : List.length (mk_shape k) <> 1 -> ~ takes_mask (Some k) d c.
Proof.
  intros Hk H. inversion H; subst; clear H;
  match goal with X : _ = Ok c |- _ => revert X end.
  - unfold new_com_task. destruct (mk_shape k) eqn:Es; [discriminate|]. rewrite <- Es in Hk. cbn [bind]. destruct (Nat.eqb _ _); [|discriminate]. cbn [bind].
    unfold init_task. rewrite init_component_rank by exact Hk. discriminate.
  - unfold new_position_task, init_task. rewrite init_component_rank by exact Hk. discriminate.
  - unfold new_frame_task, init_task. rewrite init_component_rank by exact Hk. discriminate.
  - unfold new_custom_task, init_task. rewrite init_component_rank by exact Hk. discriminate.
  - unfold new_custom_barrier, init_barrier. rewrite init_component_rank by exact Hk. discriminate.
  - unfold new_custom_constraint. rewrite init_component_rank by exact Hk. discriminate.
  - unfold new_position_barrier, init_barrier. rewrite init_component_rank by exact Hk. discriminate.
Qed.

(** Kinds that determine their dimension when they are bound. *)
Definition late_inv (a : attrs) : Prop :=
  ((exists sdg s, a_ext a = XBarrier sdg (BSelf s) /\ (a_dim a = (-1)%Z \/ a_dim a = sc_n s)) \/
   (exists x h s, a_ext a = XConstraint x h s CModelEq)) /\
  (a_mask a = None \/ (a_dim a <> (-1)%Z /\ a_mask_idxs a = zrange 0 (a_dim a))).
Lemma late_inv_step a a' : late_inv a -> astep a a' -> late_inv a'.
Proof.
  intros [He Hm] S.
  destruct S; try (destruct He as [(sdg & s' & He & _)|(x & h & s' & He)]; congruence).
  - split; cbn; [exact He|exact Hm].
  - rename H into F. assert (O := forced_other a a' F). destruct O as (_ & _ & _ & _ & Ed & Ee). split.
    + now rewrite Ee, Ed.
    + right. unfold forced in F. destruct (a_mask a) eqn:E.
      * injection F as <-. destruct Hm as [Hm|Hm]; [congruence|exact Hm].
      * destruct (Z.eqb_spec (a_dim a) (-1)) as [|Hd]; [discriminate|]. rewrite Ed. split; [exact Hd|].
        unfold get_default_mask, dim in F. destruct (Z.eqb_spec (a_dim a) (-1)); [contradiction|]. cbn in F.
        destruct (zsize (a_dim a)); [|discriminate]. cbn in F. injection F as <-. reflexivity.
Qed.
Lemma equality_bind_any m c act h s : a_ext (c_at c) = XConstraint act h s CModelEq ->
  (exists n, snd (update_model m c) = mkC (set_a_dim (set_a_mask_idxs (set_a_model (c_at c) m) (zrange 0 (Z.of_nat n))) (Z.of_nat n)) true (c_cache c)) \/
  (snd (update_model m c) = mkC (set_a_model (c_at c) m) true (c_cache c)).
Proof.
  intros He. unfold update_model, mbind, read. rewrite He. unfold update_model_equality, mseq, mbind, seta, lift.
  destruct (if Nat.ltb _ _ then _ else _) as [n|e]; [left; exists n; reflexivity|right; reflexivity].
Qed.
Lemma self_bind_any m c sdg s : a_ext (c_at c) = XBarrier sdg (BSelf s) ->
  fst (update_model m c) <> Ok tt ->
  let a' := c_at (snd (update_model m c)) in
  a_dim a' = a_dim (c_at c) /\ a_mask a' = a_mask (c_at c) /\ a_mask_idxs a' = a_mask_idxs (c_at c) /\
  exists bs ex ps, a_ext a' = XBarrier sdg (BSelf (mkSC (sc_dmin s) bs (sc_excl_raw s) ex ps (sc_n s))).
Proof.
  intros He Hne. revert Hne. assert (HU : update_model m c = update_model_self m c) by (unfold update_model, mbind, read; now rewrite He).
  rewrite HU. unfold update_model_self, mseq, mbind, seta, read, lift, self_of, ret. cbn [c_at a_ext set_a_model]. rewrite He.
  destruct s as [dm bs er ex0 ps0 n]. cbn [sc_bodies sc_excl_raw sc_n sc_dmin].
  destruct bs as [|b bs].
  - unfold upd_self. cbn [c_at a_ext set_a_model]. rewrite He. cbn [c_at a_ext set_a_ext sc_excl_raw sc_bodies sc_dmin sc_excl sc_pairs sc_n].
    destruct (exclude_set m er []) as [ex|e]; cbn [fst snd c_at a_dim a_mask a_mask_idxs a_ext set_a_ext set_a_model sc_bodies sc_excl sc_pairs sc_n sc_dmin sc_excl_raw].
    2:{ intros _. repeat split; eauto. }
    destruct (generate_collision_pairs m _ ex) as [ps|e]; cbn [fst snd c_at a_dim a_mask a_mask_idxs a_ext set_a_ext set_a_model sc_bodies sc_excl sc_pairs sc_n sc_dmin sc_excl_raw].
    2:{ intros _. repeat split; eauto. }
    destruct (n =? -1)%Z; cbn; congruence.
  - cbn [c_at a_ext set_a_model sc_excl_raw sc_bodies sc_dmin sc_excl sc_pairs sc_n].
    destruct (exclude_set m er []) as [ex|e]; cbn [fst snd c_at a_dim a_mask a_mask_idxs a_ext set_a_ext set_a_model sc_bodies sc_excl sc_pairs sc_n sc_dmin sc_excl_raw].
    2:{ intros _. rewrite He. repeat split; eauto. }
    unfold upd_self. cbn [a_ext set_a_model]. rewrite He. cbn [c_at a_ext set_a_ext set_a_model sc_excl_raw sc_bodies sc_dmin sc_excl sc_pairs sc_n].
    destruct (generate_collision_pairs m _ ex) as [ps|e]; cbn [fst snd c_at a_dim a_mask a_mask_idxs a_ext set_a_ext set_a_model sc_bodies sc_excl sc_pairs sc_n sc_dmin sc_excl_raw].
    2:{ intros _. repeat split; eauto. }
    destruct (n =? -1)%Z; cbn; congruence.
Qed.
Lemma self_bind_ok m c sdg s : a_ext (c_at c) = XBarrier sdg (BSelf s) -> fst (update_model m c) = Ok tt ->
  exists ex ps, let n := if (sc_n s =? -1)%Z then Z.of_nat (List.length ps) else sc_n s in
  exclude_set m (sc_excl_raw s) [] = Ok ex /\ generate_collision_pairs m (listed m (sc_bodies s)) ex = Ok ps /\
  update_model m c =
    (Ok tt, mkC (set_self (c_at c) m (mkSC (sc_dmin s) (listed m (sc_bodies s)) (sc_excl_raw s) (Some ex) (Some ps) n) n sdg)
                        true (c_cache c)).
Proof.
  intros He H. assert (B := self_bind m c sdg s He). destruct (exclude_set m (sc_excl_raw s) []) as [ex|]; [|congruence].
  destruct (generate_collision_pairs m (listed m (sc_bodies s)) ex) as [ps|] eqn:E; [|congruence]. exists ex, ps. auto.
Qed.
Lemma res_dec (r : res unit) : r = Ok tt \/ r <> Ok tt.
Proof. destruct r as [[]|]; [now left|right; discriminate]. Qed.
Lemma late_inv_bind c m : late_inv (c_at c) -> late_inv (c_at (snd (update_model m c))).
Proof.
  intros [[(sdg & s & He & Hd)|(x & h & s & He)] Hm].
  - destruct (res_dec (fst (update_model m c))) as [H|H].
    + destruct (self_bind_ok m c sdg s He H) as (ex & ps & _ & _ & E). rewrite E. unfold set_self. cbn [snd c_at].
      assert (Hn : (if (sc_n s =? -1)%Z then Z.of_nat (List.length ps) else sc_n s) <> (-1)%Z).
      { destruct (Z.eqb_spec (sc_n s) (-1)); [lia|assumption]. }
      split.
      * left. eexists. eexists. split; [reflexivity|]. right. reflexivity.
      * cbn [a_mask a_dim a_mask_idxs set_a_dim set_a_ext set_a_model]. destruct Hm as [Hm|[Hm1 Hm2]]; [now left|right].
        split; [exact Hn|]. destruct Hd as [Hd|Hd]; [contradiction|]. rewrite Hm2, Hd.
        destruct (Z.eqb_spec (sc_n s) (-1)); [congruence|reflexivity].
    + destruct (self_bind_any m c sdg s He H) as (A & B & C & bs & ex & ps & E). split.
      * left. do 2 eexists. split; [exact E|]. rewrite A. exact Hd.
      * rewrite A, B, C. exact Hm.
  - destruct (equality_bind_any m c x h s He) as [(n & E)|E]; rewrite E; (split; [right; cbn; eauto|]); cbn.
    + right. split; [lia|reflexivity].
    + exact Hm.
Qed.
Lemma late_new_self name gain gf sdg dm bs ex n c : new_self_collision name gain gf sdg dm bs ex n = Ok c -> late_inv (c_at c).
Proof.
  intros H. unfold new_self_collision, init_barrier in H. destruct (init_component _ _ _ _ _) as [a|] eqn:E; [|discriminate].
  injection H as <-. apply init_comp_mask in E. destruct E as (A & _ & _ & _ & D & M & _). cbn. split.
  - left. rewrite A, D. eauto.
  - left. exact M.
Qed.
Lemma late_new_eq name gain h s c : new_model_equality name gain h s = Ok c -> late_inv (c_at c).
Proof.
  intros H. unfold new_model_equality in H. destruct (init_component _ _ _ _ _) as [a|] eqn:E; [|discriminate].
  injection H as <-. apply init_comp_mask in E. destruct E as (A & _ & _ & _ & D & M & _). cbn. split.
  - right. rewrite A. eauto.
  - left. exact M.
Qed.
Lemma late_mask c d : late_inv (c_at c) -> a_dim (c_at c) = Z.of_nat d -> fst (mask_idxs c) = Ok (map Z.of_nat (seq 0 d)).
Proof.
  intros [_ Hm] Hd. destruct Hm as [Hm|[_ Hm]].
  - now apply mask_idxs_default.
  - rewrite mask_idxs_fst. unfold forced. destruct (a_mask (c_at c)) eqn:E.
    + cbn. rewrite Hm, Hd. now rewrite zrange_seq.
    + rewrite Hd, of_nat_neq_m1. unfold get_default_mask, dim. rewrite Hd, of_nat_neq_m1. cbn. rewrite zsize_nat. cbn. now rewrite zrange_seq.
Qed.
Lemma late_default c0 c d os :
  (exists name gain gf sdg dm bs ex n, new_self_collision name gain gf sdg dm bs ex n = Ok c0) \/
  (exists name gain h s, new_model_equality name gain h s = Ok c0) ->
  Forall api_op os -> c = history os c0 -> a_dim (c_at c) = Z.of_nat d ->
  fst (mask_idxs c) = Ok (map Z.of_nat (seq 0 d)).
Proof.
  intros H Ho -> Hd. apply late_mask; [|exact Hd]. apply (api_history late_inv); [exact Ho| |exact late_inv_step|exact late_inv_bind].
  destruct H as [(name & gain & gf & sdg & dm & bs & ex & n & H)|(name & gain & h & s & H)]; [eapply late_new_self|eapply late_new_eq]; exact H.
Qed.
